(** Proofs for C41. *)
From Verif Require Import Base CompactionSpec StringCompactionModel StringCompactionProofs LinkedModel LinkedSpec LinkedProofs DocModel DiffModel DiffWireModel DiffSpec DiffEditSpec DiffProofs
  JsonModel JsonProofs ValidModel ValidSpec EmbedProofs IntfModel IntfSpec.

(* ------------------------------------------------------------------ *)
(** * Parameters *)

Lemma eqb_type_iff a b : eqb_type a b = true <-> a = b.
Proof. destruct a, b; cbn; split; congruence. Qed.

Lemma verify_iff p vt q : verify_set_sabun p vt q = true <-> type_of q = type_of p /\ allows_param vt q.
Proof.
  unfold verify_set_sabun, param_acceptable.
  destruct p as [x|x|x|x|x|x|x], q as [y|y|y|y|y|y|y]; cbn; try (split; [discriminate|intros [H _]; discriminate]);
  (split; [intros H; split; [reflexivity|]|intros [_ H]]); destruct y, vt; cbn in *; try discriminate; auto; destruct H; discriminate.
Qed.

Lemma acceptable_iff vt p : acceptable vt (param_qv_type p) = true <-> allows_param vt p.
Proof. split; [|apply allows_acceptable]. destruct p as [x|x|x|x|x|x|x]; destruct x, vt; cbn; auto; discriminate. Qed.

Lemma overwrite_type t a new p : type_of (overwrite t a new p) = type_of p.
Proof. destruct t, p as [x|x|x|x|x|x|x]; try reflexivity; destruct x; reflexivity. Qed.
Lemma overwrite_qv t a new p : param_qv_type (overwrite t a new p) = param_qv_type p.
Proof. destruct t, p as [x|x|x|x|x|x|x]; try reflexivity; destruct x; reflexivity. Qed.
Lemma overwrite_wf mem t a new p : ok_write mem t a new -> wf_param mem p -> wf_param mem (overwrite t a new p).
Proof. destruct t, p as [x|x|x|x|x|x|x]; try (intros _ H; exact H); destruct x; cbn; auto. Qed.

Lemma fits_overwrite mem t a new p p0 vt : ok_write mem t a new -> fits mem p p0 vt -> fits mem (overwrite t a new p) p0 vt.
Proof.
  intros O (A & B & C). split; [rewrite overwrite_type; exact A|]. split; [rewrite overwrite_qv; exact B|apply overwrite_wf; assumption].
Qed.

Lemma fits_initial mem a len p vt : ok_initial mem (type_of p) a len -> fits mem (to_default_value a p len) p vt.
Proof.
  intros (L0 & L1 & M).
  assert (Z0 : zlen (repeat 0 (Z.to_nat len)) = len) by (unfold zlen; rewrite repeat_length; lia).
  assert (R : forall P : Z -> Prop, P 0 -> Forall P (repeat 0 (Z.to_nat len))).
  { intros P H. apply Forall_forall. intros x I. apply repeat_spec in I. subst x. exact H. }
  split; [destruct p; reflexivity|]. split; [destruct p, vt; reflexivity|].
  destruct p as [x|x|x|x|x|x|x]; cbn [type_of] in M; cbn [to_default_value wf_param fst snd].
  - exact I.
  - split; lia.
  - split; lia.
  - split; [symmetry; exact M|]. split; [constructor|]. split; [reflexivity|unfold zlen; cbn; lia].
  - split; [symmetry; exact M|]. split; [apply R; split; lia|lia].
  - split; [apply R; split; lia|lia].
  - split; [symmetry; exact M|]. split; [apply R; unfold wf_byte; lia|lia].
Qed.

(* ------------------------------------------------------------------ *)
(** * Setting and reading *)

Section Single.
Context {D L : Type}.
Implicit Types (it : item L) (d : ldef D) (s : hmap (rootsab L)) (def : hmap (Z * rootval D)).

Lemma set_item it d key p : item_kinds it d ->
  exists it' b, item_set it d key p = Ok (it', b) /\ (b = true <-> declared d key p) /\
    (b = false -> it' = it) /\
    (b = true -> item_param it' d key = Some p /\ hget key (it_values it') = Some (LParam p) /\ only_value key it it').
Proof.
  intros K. unfold item_set, declared.
  assert (No : forall x : Prop, (forall id p0 vt, hget key (ld_members d) = Some (id, DParam p0 vt) -> ~ (type_of p = type_of p0 /\ allows_param vt p)) ->
    exists it' b, Ok (it, false) = Ok (it', b) /\ (b = true <-> exists id p0 vt, hget key (ld_members d) = Some (id, DParam p0 vt) /\ type_of p = type_of p0 /\ allows_param vt p) /\
      (b = false -> it' = it) /\ (b = true -> item_param it' d key = Some p /\ hget key (it_values it') = Some (LParam p) /\ only_value key it it')).
  { intros x H. exists it, false. split; [reflexivity|]. split; [|split; [reflexivity|discriminate]]. split; [discriminate|].
    intros (id & p0 & vt & G & T). destruct (H _ _ _ G T). }
  destruct (hget key (ld_members d)) as [[id [p0 vt|d'|d' u]]|] eqn:G.
  - destruct (verify_set_sabun p0 vt p) eqn:V.
    + assert (O : match hget key (it_values it) with None | Some (LParam _) => True | _ => False end).
      { destruct (hget key (it_values it)) as [v|] eqn:E; [|exact I]. destruct (K _ _ _ _ _ E G) as [q ->]. exact I. }
      exists (Item (hset key (LParam p) (it_values it)) (it_refs it)), true. split; [destruct (hget key (it_values it)) as [[]|]; first [reflexivity|destruct O]|].
      apply verify_iff in V. split; [split; [intros _; exists id, p0, vt; auto|reflexivity]|]. split; [discriminate|]. intros _.
      unfold item_param. cbn [it_values it_refs]. rewrite hget_hset_same. split; [reflexivity|]. split; [reflexivity|]. split; [reflexivity|].
      intros k Hk. apply hget_hset_other, Hk.
    + apply (No True). intros id' p1 vt' E T. injection E as <- <- <-. apply verify_iff in T. congruence.
  - apply (No True). discriminate.
  - apply (No True). discriminate.
  - apply (No True). discriminate.
Qed.

Lemma set_root s def key p : root_kinds s def ->
  exists s' b, root_set s def key p = (s', b) /\ (b = true <-> root_declared def key p) /\
    (b = false -> s' = s) /\
    (b = true -> root_param s' def key = Some p /\ hget key s' = Some (RParam p) /\ only_member key s s').
Proof.
  intros K. unfold root_set, root_declared.
  assert (No : forall x : Prop, (forall id p0 vt, hget key def = Some (id, RVParam p0 vt) -> ~ (type_of p = type_of p0 /\ allows_param vt p)) ->
    exists s' b, (s, false) = (s', b) /\ (b = true <-> exists id p0 vt, hget key def = Some (id, RVParam p0 vt) /\ type_of p = type_of p0 /\ allows_param vt p) /\
      (b = false -> s' = s) /\ (b = true -> root_param s' def key = Some p /\ hget key s' = Some (RParam p) /\ only_member key s s')).
  { intros x H. exists s, false. split; [reflexivity|]. split; [|split; [reflexivity|discriminate]]. split; [discriminate|].
    intros (id & p0 & vt & G & T). destruct (H _ _ _ G T). }
  destruct (hget key def) as [[id [p0 vt| | |d' u]]|] eqn:G.
  - destruct (verify_set_sabun p0 vt p) eqn:V.
    + exists (hset key (RParam p) s), true. split.
      { destruct (hget key s) as [v|] eqn:E; [|reflexivity]. destruct (K _ _ _ _ _ E G) as [q ->]. reflexivity. }
      apply verify_iff in V. split; [split; [intros _; exists id, p0, vt; auto|reflexivity]|]. split; [discriminate|]. intros _.
      unfold root_param. rewrite hget_hset_same. split; [reflexivity|]. split; [reflexivity|]. intros k Hk. apply hget_hset_other, Hk.
    + apply (No True). intros id' p1 vt' E T. injection E as <- <- <-. apply verify_iff in T. congruence.
  - apply (No True). discriminate.
  - apply (No True). discriminate.
  - apply (No True). discriminate.
  - apply (No True). discriminate.
Qed.
End Single.

(* ------------------------------------------------------------------ *)
(** * Lists *)

Section Lists.
Context {V : Type}.
Notation items := (list (Z * V)).

Lemma lookup_split id (l : items) v : lookup id l = Some v -> NoDup (ids l) ->
  exists l1 l2, l = l1 ++ (id, v) :: l2 /\ ~ In id (ids l1) /\ ~ In id (ids l2) /\
    (forall v', assign id v' l = l1 ++ (id, v') :: l2) /\ without id l = l1 ++ l2.
Proof.
  intros H N. apply lookup_in' in H. apply in_split in H as (l1 & l2 & ->). exists l1, l2. split; [reflexivity|].
  unfold ids in *. rewrite map_app in N. cbn in N. pose proof (NoDup_remove_2 _ _ _ N) as K.
  assert (K1 : ~ In id (map fst l1)) by (intros I; apply K, in_or_app; auto).
  assert (K2 : ~ In id (map fst l2)) by (intros I; apply K, in_or_app; auto).
  split; [exact K1|]. split; [exact K2|].
  assert (As : forall (m : items) v', ~ In id (map fst m) -> map (fun p => if fst p =? id then (fst p, v') else p) m = m).
  { intros m v' H. induction m as [|[k w] m IH]; [reflexivity|]. cbn in *. destruct (Z.eqb_spec k id); [tauto|]. f_equal. auto. }
  split.
  - intros v'. unfold assign. rewrite map_app. cbn. rewrite Z.eqb_refl, !As by assumption. reflexivity.
  - apply without_mid; assumption.
Qed.

Lemma lookup_iff id (l : items) v : NoDup (ids l) -> (lookup id l = Some v <-> In (id, v) l).
Proof. intros N. split; [apply lookup_in'|apply in_lookup, N]. Qed.

Lemma before_perm k x (l : items) : In k (ids l) -> Permutation (before k x l) (x :: l).
Proof.
  induction l as [|y l IH]; [intros []|]. cbn. destruct (Z.eqb_spec (fst y) k); [reflexivity|]. intros [H|H]; [contradiction|].
  rewrite (IH H). apply perm_swap.
Qed.
Lemma after_perm k x (l : items) : In k (ids l) -> Permutation (after k x l) (x :: l).
Proof.
  induction l as [|y l IH]; [intros []|]. cbn. destruct (Z.eqb_spec (fst y) k); [intros _; apply perm_swap|]. intros [H|H]; [contradiction|].
  rewrite (IH H). apply perm_swap.
Qed.
Lemma has_in id (l : items) : has id l = true <-> In id (ids l).
Proof.
  unfold has, ids. induction l as [|[k v] l IH]; cbn; [split; [discriminate|intros []]|]. destruct (Z.eqb_spec id k) as [->|N].
  - split; auto.
  - rewrite IH. split; [auto|]. intros [E|H]; [congruence|exact H].
Qed.
Lemma without_in k id (l : items) : k <> id -> In k (ids l) -> In k (ids (without id l)).
Proof.
  intros N. unfold ids, without. rewrite !in_map_iff. intros ([k' v] & E & I). cbn in E. subst k'. exists (k, v). split; [reflexivity|].
  apply filter_In. split; [exact I|]. cbn. destruct (Z.eqb_spec k id); [contradiction|reflexivity].
Qed.
Lemma move_perm id (l : items) v : lookup id l = Some v -> NoDup (ids l) -> Permutation l ((id, v) :: without id l).
Proof. intros H N. destruct (lookup_split id l v H N) as (l1 & l2 & -> & _ & _ & _ & ->). symmetry. apply Permutation_middle. Qed.
End Lists.

(** what one call does to a list *)
Definition is_move (o : list_op) : Prop :=
  match o with LMoveToFirst _ | LMoveToLast _ | LMoveToPrev _ _ | LMoveToNext _ _ => True | _ => False end.

Lemma list_do_cases {L} (l l' : mlist (item L)) o b : NoDup (ids (fst l)) -> list_do l o = Ok (l', b) ->
  l' = l \/
  (exists l1 l2 next, l = (l1 ++ l2, next) /\ l' = (l1 ++ (next, Item [] []) :: l2, next + 1) /\
     next + 1 < 2 ^ 64 /\ ~ In next (ids (fst l)) /\ zlen (fst l) + 1 < 2 ^ 62) \/
  (exists l1 l2 id it next, l = (l1 ++ (id, it) :: l2, next) /\ l' = (l1 ++ l2, next)) \/
  (is_move o /\ Permutation (fst l) (fst l') /\ snd l' = snd l).
Proof.
  destruct l as [l next]. cbn [fst snd]. intros N E. unfold list_do in E. cbn [fst snd] in E.
  assert (Ins : forall l1 l2 : list (Z * item L), l = l1 ++ l2 -> (next + 1 <? 2 ^ 64) && negb (has next l) && (zlen l + 1 <? 2 ^ 62) = true ->
     exists l1 l2 next0, (l, next) = (l1 ++ l2, next0) /\ (l1 ++ (next, Item [] []) :: l2, next + 1) = (l1 ++ (next0, Item [] []) :: l2, next0 + 1) /\
     next0 + 1 < 2 ^ 64 /\ ~ In next0 (ids l) /\ zlen l + 1 < 2 ^ 62).
  { intros l1 l2 -> C. apply andb_true_iff in C as [C C3]. apply andb_true_iff in C as [C1 C2]. apply Z.ltb_lt in C1, C3. apply negb_true_iff in C2.
    exists l1, l2, next. split; [reflexivity|]. split; [reflexivity|]. split; [exact C1|]. split; [|exact C3]. rewrite <- has_in. congruence. }
  destruct o.
  - destruct (_ && _) eqn:C; [|discriminate]. apply Ok_inj, pair_equal_spec in E as [<- _]. cbn [astep fst snd]. right; left.
    apply andb_true_iff in C as [C C3]. apply andb_true_iff in C as [C1 C2]. apply Z.ltb_lt in C1, C3. apply negb_true_iff in C2.
    exists [], l, next. split; [reflexivity|]. split; [reflexivity|]. split; [exact C1|]. split; [|exact C3]. rewrite <- has_in. congruence.
  - destruct (_ && _) eqn:C; [|discriminate]. apply Ok_inj, pair_equal_spec in E as [<- _]. cbn [astep fst snd]. right; left.
    apply andb_true_iff in C as [C C3]. apply andb_true_iff in C as [C1 C2]. apply Z.ltb_lt in C1, C3. apply negb_true_iff in C2.
    exists l, [], next. split; [rewrite app_nil_r; reflexivity|]. split; [reflexivity|]. split; [exact C1|]. split; [|exact C3]. rewrite <- has_in. congruence.
  - apply Ok_inj, pair_equal_spec in E as [<- _]. cbn [astep fst snd]. destruct (lookup id l) as [it|] eqn:G.
    + right; right; left. destruct (lookup_split id l it G N) as (l1 & l2 & E & _ & _ & _ & W). exists l1, l2, id, it, next. rewrite W, <- E. auto.
    + left. rewrite without_absent; [reflexivity|]. rewrite <- has_in. unfold has. rewrite G. discriminate.
  - apply Ok_inj, pair_equal_spec in E as [<- _]. cbn [astep fst snd]. destruct l as [|[id it] l]; [left; reflexivity|].
    right; right; left. exists [], l, id, it, next. auto.
  - apply Ok_inj, pair_equal_spec in E as [<- _]. cbn [astep fst snd]. destruct l as [|x l]; [left; reflexivity|].
    right; right; left. destruct (exists_last (l := x :: l) ltac:(discriminate)) as (l1 & [id it] & E). exists l1, [], id, it, next. rewrite E, removelast_last, app_nil_r. auto.
  - apply Ok_inj, pair_equal_spec in E as [<- _]. cbn [astep]. destruct (lookup id l) as [it|] eqn:G; [|left; reflexivity].
    right; right; right. cbn. split; [exact I|]. split; [apply move_perm; assumption|reflexivity].
  - apply Ok_inj, pair_equal_spec in E as [<- _]. cbn [astep]. destruct (lookup id l) as [it|] eqn:G; [|left; reflexivity].
    right; right; right. cbn. split; [exact I|]. split; [|reflexivity]. rewrite (move_perm id l it G N) at 1. apply Permutation_cons_append.
  - apply Ok_inj, pair_equal_spec in E as [<- _]. cbn [astep]. destruct (lookup id l) as [it|] eqn:G; [|left; reflexivity].
    destruct ((id =? next_items_id) || negb (has next_items_id l)) eqn:C; [left; reflexivity|]. apply orb_false_iff in C as [C1 C2].
    apply Z.eqb_neq in C1. apply negb_false_iff, has_in in C2.
    right; right; right. cbn. split; [exact I|]. split; [|reflexivity]. rewrite before_perm; [apply move_perm; assumption|]. apply without_in; auto.
  - apply Ok_inj, pair_equal_spec in E as [<- _]. cbn [astep]. destruct (lookup id l) as [it|] eqn:G; [|left; reflexivity].
    destruct ((id =? prev_items_id) || negb (has prev_items_id l)) eqn:C; [left; reflexivity|]. apply orb_false_iff in C as [C1 C2].
    apply Z.eqb_neq in C1. apply negb_false_iff, has_in in C2.
    right; right; right. cbn. split; [exact I|]. split; [|reflexivity]. rewrite after_perm; [apply move_perm; assumption|]. apply without_in; auto.
Qed.

(* ------------------------------------------------------------------ *)
(** * Documents stay documents *)

Section Typed.
Variable mem : Z -> list Z.

Lemma typed_set {D L} (inner : L -> D -> Prop) it (d : ldef D) key v : typed_item mem inner it d -> typed_value mem inner (ld_members d) key v ->
  typed_item mem inner (Item (hset key v (it_values it)) (it_refs it)) d.
Proof.
  intros (A & B & C & R) T. split; [apply hset_nodup, A|]. split; [exact B|]. split; [|exact R]. cbn [it_values]. intros k w G.
  destruct (name_dec k key) as [->|Hk].
  - rewrite hget_hset_same in G. apply Some_inj in G; subst w. exact T.
  - rewrite hget_hset_other in G by exact Hk. apply C, G.
Qed.
Lemma typed_set_ref {D L} (inner : L -> D -> Prop) (it : item L) (d : ldef D) key q refs : typed_item mem inner it d ->
  typed_ref (ld_refs d) key q -> NoDup (map fst refs) -> (forall k x, hget k refs = Some x -> typed_ref (ld_refs d) k x) ->
  typed_item mem inner (Item (it_values it) (hset key q refs)) d.
Proof.
  intros (A & B & C & R) T N H. split; [exact A|]. split; [apply hset_nodup, N|]. split; [exact C|]. cbn [it_refs]. intros k w G.
  destruct (name_dec k key) as [->|Hk].
  - rewrite hget_hset_same in G. apply Some_inj in G; subst w. exact T.
  - rewrite hget_hset_other in G by exact Hk. apply H, G.
Qed.

Lemma typed_kinds {D L} (inner : L -> D -> Prop) it (d : ldef D) : typed_item mem inner it d -> item_kinds it d.
Proof.
  intros (_ & _ & C & _) key v id p vt G H. apply C in G. destruct v as [q|c|o]; [eauto| |]; cbn in G.
  - destruct G as (i & d' & E). congruence.
  - destruct G as (i & d' & u & E & _). congruence.
Qed.
Lemma typed_root_kinds {n} (s : sabun n) def : typed_root mem s def -> root_kinds s def.
Proof.
  intros (_ & C) key v id p vt G H. apply C in G. destruct v as [q|o]; [eauto|]. destruct G as (i & d' & u & E & _). congruence.
Qed.

Lemma empty_typed n d : few_defT n d -> typedT mem n (empty_list n d) d.
Proof.
  destruct n; [destruct d|]. intros (A & B & _). cbn. split; [constructor|]. split; [constructor|]. split; [split; cbn; lia|].
  split; [unfold zlen; cbn; lia|]. split; [exact A|]. split; [exact B|]. intros id it H. discriminate.
Qed.

Lemma item_do_typed n (it it' : item (mlistT n)) (d : ldef (defT n)) o b :
  (forall key id d' u, hget key (ld_members d) = Some (id, DMil d' u) -> few_defT n d') ->
  typed_item mem (typedT mem n) it d -> ok_item_op mem d o -> item_do it d o = Ok (it', b) -> typed_item mem (typedT mem n) it' d.
Proof.
  intros Few T O E. pose proof T as (T1 & T2 & T3 & T4). destruct o as [key p|key t a new|key a len|key q|key id|key]; cbn [item_do ok_item_op] in *.
  - unfold item_set in E. destruct (hget key (ld_members d)) as [[id [p0 vt|d'|d' u]]|] eqn:G; try (apply Ok_inj, pair_equal_spec in E as [<- _]; exact T).
    destruct (verify_set_sabun p0 vt p) eqn:V; [|apply Ok_inj, pair_equal_spec in E as [<- _]; exact T].
    apply verify_iff in V as [V1 V2].
    assert (TV : typed_value mem (typedT mem n) (ld_members d) key (LParam p)).
    { exists id, p0, vt. split; [exact G|]. split; [exact V1|]. split; [apply allows_acceptable, V2|exact O]. }
    destruct (hget key (it_values it)) as [[]|]; try discriminate; apply Ok_inj, pair_equal_spec in E as [<- _]; apply typed_set; assumption.
  - destruct O as [O1 O2]. unfold item_write, item_param_mut in E.
    destruct (hget key (it_values it)) as [v|] eqn:Gv.
    + pose proof (T3 _ _ Gv) as Tv. destruct v as [p|c|l].
      * cbn in Tv. destruct Tv as (id & p0 & vt & G & F). destruct (eqb_type (type_of p) t); apply Ok_inj, pair_equal_spec in E as [<- _]; [|exact T].
        apply typed_set; [exact T|]. exists id, p0, vt. split; [exact G|apply fits_overwrite; assumption].
      * cbn in Tv. destruct Tv as (id & d' & G). rewrite G in E. apply Ok_inj, pair_equal_spec in E as [<- _]; exact T.
      * cbn in Tv. destruct Tv as (id & d' & u & G & _). rewrite G in E. apply Ok_inj, pair_equal_spec in E as [<- _]; exact T.
    + destruct (hget key (ld_members d)) as [[id [p0 vt|d'|d' u]]|] eqn:G; try (apply Ok_inj, pair_equal_spec in E as [<- _]; exact T).
      specialize (O2 _ _ _ eq_refl).
      assert (T' : typed_item mem (typedT mem n) (Item (hset key (LParam p0) (it_values it)) (it_refs it)) d).
      { apply typed_set; [exact T|]. exists id, p0, vt. split; [exact G|exact O2]. }
      destruct (eqb_type (type_of p0) t); apply Ok_inj, pair_equal_spec in E as [<- _]; [|exact T'].
      apply typed_set; [exact T'|]. exists id, p0, vt. split; [exact G|apply fits_overwrite; assumption].
  - unfold item_initial in E. destruct (hget key (ld_members d)) as [[id [p0 vt|d'|d' u]]|] eqn:G; apply Ok_inj, pair_equal_spec in E as [<- _]; try exact T.
    apply typed_set; [exact T|]. exists id, p0, vt. split; [exact G|apply fits_initial, (O _ _ _ eq_refl)].
  - apply Ok_inj, pair_equal_spec in E as [<- _]. apply typed_set_ref; assumption.
  - apply Ok_inj, pair_equal_spec in E as [<- _]. cbn [it_values it_refs]. apply (typed_set_ref _ it); [exact T|exact O|constructor|discriminate].
  - unfold item_open in E. destruct (hget key (ld_members d)) as [[id [p0 vt|d'|d' u]]|] eqn:G; try (apply Ok_inj, pair_equal_spec in E as [<- _]; exact T).
    assert (T' : typed_item mem (typedT mem n) (Item (hset key (LMil (Some (empty_list n d'))) (it_values it)) (it_refs it)) d).
    { apply typed_set; [exact T|]. exists id, d', u. split; [exact G|]. apply empty_typed, (Few _ _ _ _ G). }
    destruct (hget key (it_values it)) as [[p|c|[l|]]|]; apply Ok_inj, pair_equal_spec in E as [<- _]; assumption.
Qed.

Lemma list_do_typed {D L} (inner : L -> D -> Prop) (d : ldef D) (l l' : mlist (item L)) o b :
  typed_list mem inner l d -> list_do l o = Ok (l', b) -> typed_list mem inner l' d.
Proof.
  intros T E. pose proof T as (N & R & Rn & Le & F1 & F2 & It).
  destruct (list_do_cases _ _ _ _ N E) as [-> |[(l1 & l2 & next & -> & -> & C1 & C2 & C3)|[(l1 & l2 & id & it & next & -> & ->)|(M & P & S)]]].
  - exact T.
  - cbn [fst snd] in *. unfold typed_list. cbn [fst snd]. unfold ids in *. rewrite map_app in *. cbn [map fst].
    assert (N' : NoDup (map fst l1 ++ next :: map fst l2)).
    { eapply Permutation_NoDup; [apply Permutation_middle|]. constructor; assumption. }
    split; [exact N'|]. split.
    { apply Forall_app in R as [R1 R2]. apply Forall_app. split; [exact R1|]. constructor; [exact Rn|exact R2]. }
    split; [unfold u64_range in *; lia|]. split; [rewrite zlen_app in *; rewrite zlen_cons; lia|]. split; [exact F1|]. split; [exact F2|].
    intros id it G. apply lookup_in' in G. apply in_app_or in G as [G|[G|G]].
    + apply (It id). apply in_lookup; [rewrite map_app; exact N|apply in_or_app; auto].
    + injection G as <- <-. split; [constructor|]. split; [constructor|]. split; discriminate.
    + apply (It id). apply in_lookup; [rewrite map_app; exact N|apply in_or_app; auto].
  - cbn [fst snd] in *. unfold typed_list. cbn [fst snd]. unfold ids in *. rewrite map_app in *. cbn [map fst] in *.
    split; [apply NoDup_remove_1 in N; exact N|]. split.
    { apply Forall_app in R as [R1 R2]. apply Forall_app. split; [exact R1|]. inversion R2; assumption. }
    split; [exact Rn|]. split; [rewrite zlen_app in *; rewrite zlen_cons in Le; lia|]. split; [exact F1|]. split; [exact F2|].
    intros id' it' G. apply lookup_in' in G. apply (It id'). apply in_lookup; [rewrite map_app; exact N|]. apply in_app_or in G as [G|G]; apply in_or_app; [auto|right; right; exact G].
  - destruct l as [l n0], l' as [l' n']. cbn [fst snd] in *. subst n'. unfold typed_list. cbn [fst snd]. unfold ids in *.
    assert (P' : Permutation (map fst l) (map fst l')) by (apply Permutation_map, P).
    split; [eapply Permutation_NoDup; eassumption|]. split; [eapply Permutation_Forall; eassumption|]. split; [exact Rn|].
    split; [unfold zlen in *; rewrite <- (Permutation_length P); exact Le|]. split; [exact F1|]. split; [exact F2|].
    intros id it G. apply lookup_in' in G. apply (It id). apply in_lookup; [exact N|]. eapply Permutation_in; [apply Permutation_sym, P|exact G].
Qed.

Lemma assign_typed {D L} (inner : L -> D -> Prop) (d : ldef D) (l : mlist (item L)) id it it' :
  typed_list mem inner l d -> lookup id (fst l) = Some it -> typed_item mem inner it' d ->
  typed_list mem inner (assign id it' (fst l), snd l) d.
Proof.
  intros (N & R & Rn & Le & F1 & F2 & It) G T. destruct (lookup_split _ _ _ G N) as (l1 & l2 & E & K1 & K2 & As & _). rewrite As.
  destruct l as [l next]. cbn [fst snd] in *. subst l. unfold typed_list, ids in *. cbn [fst snd]. rewrite map_app in *. cbn [map fst] in *.
  split; [exact N|]. split; [exact R|]. split; [exact Rn|]. split; [rewrite zlen_app, zlen_cons in *; exact Le|]. split; [exact F1|]. split; [exact F2|].
  intros i x H. apply lookup_in' in H. apply in_app_or in H as [H|[H|H]].
  - apply (It i). apply in_lookup; [rewrite map_app; exact N|]. apply in_or_app; auto.
  - injection H as <- <-. exact T.
  - apply (It i). apply in_lookup; [rewrite map_app; exact N|]. apply in_or_app. right; right; exact H.
Qed.

Lemma list_run_typed n : forall st d l l' b, few_defT n d -> typedT mem n l d -> ok_step mem n st d ->
  list_run n st d l = Ok (l', b) -> typedT mem n l' d.
Proof.
  induction n as [|n IH]; intros st d l l' b; [destruct d|]. intros Few T O E. cbn [typedT] in T |- *. destruct Few as (Fm & Fr & Few).
  destruct st as [o|id o|id key st]; cbn [list_run ok_step] in E, O.
  - eapply list_do_typed; eassumption.
  - destruct (lookup id (fst l)) as [it|] eqn:G; [|apply Ok_inj, pair_equal_spec in E as [<- _]; exact T].
    apply bind_ok in E as ([it' b'] & E1 & E2). apply Ok_inj, pair_equal_spec in E2 as [<- _].
    eapply assign_typed; [exact T|exact G|]. eapply item_do_typed; [exact Few| |exact O|exact E1]. apply T in G. exact G.
  - destruct (lookup id (fst l)) as [it|] eqn:G; [|apply Ok_inj, pair_equal_spec in E as [<- _]; exact T].
    pose proof T as (_ & _ & _ & _ & _ & _ & It). pose proof (It _ _ G) as Ti.
    destruct (item_open it d key (empty_list n)) as [it1 r] eqn:Eo.
    assert (T1 : typed_item mem (typedT mem n) it1 d).
    { apply (item_do_typed n it it1 d (IOpen key) (is_some r)); [exact Few|exact Ti|exact Logic.I|].
      exact (f_equal (fun x : item (mlistT n) * option (defT n * mlistT n) => let '(a, c) := x in Ok (a, is_some c)) Eo). }
    destruct r as [[d' l1]|]; [|apply Ok_inj, pair_equal_spec in E as [<- _]; exact T].
    apply bind_ok in E as ([l2 b'] & E1 & E2). apply Ok_inj, pair_equal_spec in E2 as [<- _].
    unfold item_open in Eo. destruct (hget key (ld_members d)) as [[i [p0 vt|d0|d0 u]]|] eqn:Gd; try discriminate.
    assert (Hl : d0 = d' /\ typedT mem n l1 d0).
    { destruct (hget key (it_values it)) as [[p|c|[l0|]]|] eqn:Gv; injection Eo as _ <- <-; (split; [reflexivity|]);
      try (apply empty_typed, (Few _ _ _ _ Gd)). destruct Ti as (_ & _ & T3 & _). destruct (T3 _ _ Gv) as (i' & d1 & u' & G1 & T4).
      pose proof (eq_trans (eq_sym Gd) G1) as G2. injection G2 as <- <- <-. exact T4. }
    destruct Hl as [<- Hl]. eapply assign_typed; [exact T|exact G|]. apply typed_set; [exact T1|]. exists i, d0, u. split; [exact Gd|].
    eapply IH; [apply (Few _ _ _ _ Gd)|exact Hl|apply (O _ _ _ eq_refl)|exact E1].
Qed.

Lemma typed_root_set n (s : sabun n) (def : rootdef n) key v : typed_root mem s def ->
  match v with
  | RParam p => exists id p0 vt, hget key def = Some (id, RVParam p0 vt) /\ fits mem p p0 vt
  | RMut o => exists id d u, hget key def = Some (id, RVMList d u) /\ match o with Some l => typedT mem n l d | None => u = true end
  end -> typed_root mem (hset key v s) def.
Proof.
  intros (A & C) T. split; [apply hset_nodup, A|]. intros k w G. destruct (name_dec k key) as [->|Hk].
  - rewrite hget_hset_same in G. apply Some_inj in G; subst w. exact T.
  - rewrite hget_hset_other in G by exact Hk. apply (C _ _ G).
Qed.

Lemma root_open_typed n (s s' : sabun n) (def : rootdef n) key r : few_rootdef def -> typed_root mem s def ->
  root_open s def key (empty_list n) = (s', r) ->
  typed_root mem s' def /\ (forall d l, r = Some (d, l) -> exists id u, hget key def = Some (id, RVMList d u) /\ typedT mem n l d /\ hget key s' = Some (RMut (Some l))).
Proof.
  intros Few T E. unfold root_open in E. destruct (hget key def) as [[id [p vt| | |d u]]|] eqn:G;
    try (apply pair_equal_spec in E as [<- <-]; split; [exact T|discriminate]).
  pose proof (empty_typed n d (Few _ _ _ _ G)) as Em.
  assert (T' : typed_root mem (hset key (RMut (Some (empty_list n d))) s) def).
  { apply typed_root_set; [exact T|]. exists id, d, u. auto. }
  destruct (hget key s) as [[p|[l|]]|] eqn:Gs; apply pair_equal_spec in E as [<- <-].
  2:{ split; [exact T|]. intros d' l' E. injection E as <- <-. exists id, u. split; [reflexivity|]. split; [|exact Gs].
      apply T in Gs. destruct Gs as (i & d1 & u' & G1 & T1). rewrite G in G1. injection G1 as <- <- <-. exact T1. }
  all: split; [exact T'|]; intros d' l' E; injection E as <- <-; exists id, u; (split; [reflexivity|]); (split; [exact Em|apply hget_hset_same]).
Qed.

Lemma root_run_typed n (s s' : sabun n) (def : rootdef n) o b : few_rootdef def -> typed_root mem s def -> ok_root_step mem def o ->
  root_run def s o = Ok (s', b) -> typed_root mem s' def.
Proof.
  intros Few T O E. pose proof T as (T1 & T3). destruct o as [key p|key t a new|key a len|key|key st]; cbn [root_run ok_root_step] in *.
  - unfold root_set in E. destruct (hget key def) as [[id [p0 vt| | |d u]]|] eqn:G; try (apply Ok_inj, pair_equal_spec in E as [<- _]; exact T).
    destruct (verify_set_sabun p0 vt p) eqn:V; apply Ok_inj, pair_equal_spec in E as [<- _]; [|exact T]. apply verify_iff in V as [V1 V2].
    apply typed_root_set; [exact T|]. exists id, p0, vt. split; [exact G|]. split; [exact V1|]. split; [apply allows_acceptable, V2|exact O].
  - destruct O as [O1 O2]. unfold root_write, root_param_mut in E. destruct (hget key s) as [v|] eqn:Gv.
    + pose proof (T3 _ _ Gv) as Tv. destruct v as [p|l].
      * destruct Tv as (id & p0 & vt & G & F). destruct (eqb_type (type_of p) t); apply Ok_inj, pair_equal_spec in E as [<- _]; [|exact T].
        apply typed_root_set; [exact T|]. exists id, p0, vt. split; [exact G|apply fits_overwrite; assumption].
      * destruct Tv as (id & d' & u & G & _). rewrite G in E. apply Ok_inj, pair_equal_spec in E as [<- _]; exact T.
    + destruct (hget key def) as [[id [p0 vt| | |d u]]|] eqn:G; try (apply Ok_inj, pair_equal_spec in E as [<- _]; exact T).
      specialize (O2 _ _ _ eq_refl).
      assert (T' : typed_root mem (hset key (RParam p0) s) def).
      { apply typed_root_set; [exact T|]. exists id, p0, vt. auto. }
      destruct (eqb_type (type_of p0) t); apply Ok_inj, pair_equal_spec in E as [<- _]; [|exact T'].
      apply typed_root_set; [exact T'|]. exists id, p0, vt. split; [exact G|apply fits_overwrite; assumption].
  - unfold root_initial in E. destruct (hget key def) as [[id [p0 vt| | |d u]]|] eqn:G; apply Ok_inj, pair_equal_spec in E as [<- _]; try exact T.
    apply typed_root_set; [exact T|]. exists id, p0, vt. split; [exact G|apply fits_initial, (O _ _ _ eq_refl)].
  - destruct (root_open s def key (empty_list n)) as [s1 r] eqn:Eo. apply Ok_inj, pair_equal_spec in E as [<- _].
    apply (root_open_typed _ _ _ _ _ _ Few T Eo).
  - destruct (root_open s def key (empty_list n)) as [s1 r] eqn:Eo. destruct (root_open_typed _ _ _ _ _ _ Few T Eo) as [T' H].
    destruct r as [[d l]|]; [|apply Ok_inj, pair_equal_spec in E as [<- _]; exact T'].
    destruct (H _ _ eq_refl) as (id & u & G & Tl & _). apply bind_ok in E as ([l2 b'] & E1 & E2). apply Ok_inj, pair_equal_spec in E2 as [<- _].
    apply typed_root_set; [exact T'|]. exists id, d, u. split; [exact G|]. eapply list_run_typed; [apply (Few _ _ _ _ G)|exact Tl|apply (O _ _ _ G)|exact E1].
Qed.

Theorem program_typed n (def : rootdef n) ops : few_rootdef def -> Forall (ok_root_step mem def) ops -> forall s s', typed_root mem s def ->
  program_run def s ops = Ok s' -> typed_root mem s' def.
Proof.
  intros Few F. induction F as [|o ops O F IH]; intros s s' T E; unfold program_run in E; cbn [mfold] in E.
  - apply Ok_inj in E; subst s'. exact T.
  - apply bind_ok in E as (s1 & E1 & E2). apply bind_ok in E1 as ([s2 b] & E1 & E3). apply Ok_inj in E3; subst s2.
    eapply IH; [|exact E2]. eapply root_run_typed; eassumption.
Qed.
End Typed.

(* ------------------------------------------------------------------ *)
(** * Programs are edits *)

Lemma reached_trans {A} (R : A -> A -> Prop) a b c : reached R a b -> reached R b c -> reached R a c.
Proof. intros H. induction 1; [exact H|]. econstructor; eassumption. Qed.
Lemma reached_one {A} (R : A -> A -> Prop) a b : R a b -> reached R a b.
Proof. intros H. econstructor; [constructor|exact H]. Qed.

Lemma hset_twice {A} k (v w : A) m : hset k v (hset k w m) = hset k v m.
Proof.
  induction m as [|[x y] m IH]; cbn; [rewrite eqb_bytes_refl; reflexivity|]. destruct (eqb_bytes x k) eqn:E; cbn; rewrite E; [reflexivity|].
  f_equal. exact IH.
Qed.

Section Edits.
Variable ord : bool.
Variable mem : Z -> list Z.

Lemma empty_list_T n d : empty_listT n (empty_list n d).
Proof. destruct n; [destruct d|reflexivity]. Qed.

Section Item.
Variable n : nat.
Notation ed := (edit_item (empty_listT n) (editT ord n)).

Lemma item_do_edit (it it' : item (mlistT n)) (d : ldef (defT n)) o b :
  typed_item mem (typedT mem n) it d -> calm_item_op it o -> item_do it d o = Ok (it', b) -> reached ed it it'.
Proof.
  intros T Ca E. pose proof (typed_kinds mem _ it d T) as K. destruct T as (_ & _ & T3 & _).
  assert (Free : forall key id p0 vt, hget key (ld_members d) = Some (id, DParam p0 vt) ->
    match hget key (it_values it) with None | Some (LParam _) => True | _ => False end).
  { intros key id p0 vt G. destruct (hget key (it_values it)) as [v|] eqn:Gv; [|exact I]. destruct (K _ _ _ _ _ Gv G) as [q ->]. exact I. }
  destruct o as [key p|key t a new|key a len|key q|key id|key]; cbn [item_do calm_item_op] in *.
  - unfold item_set in E. destruct (hget key (ld_members d)) as [[id [p0 vt|d'|d' u]]|] eqn:G; try (apply Ok_inj, pair_equal_spec in E as [<- _]; constructor).
    destruct (verify_set_sabun p0 vt p); [|apply Ok_inj, pair_equal_spec in E as [<- _]; constructor]. specialize (Free _ _ _ _ G).
    assert (R : reached ed it (Item (hset key (LParam p) (it_values it)) (it_refs it))) by (apply reached_one, set_param, Free).
    destruct (hget key (it_values it)) as [[]|]; try discriminate; apply Ok_inj, pair_equal_spec in E as [<- _]; exact R.
  - unfold item_write, item_param_mut in E.
    assert (Go : forall p, match hget key (it_values it) with None | Some (LParam _) => True | _ => False end ->
      reached ed it (Item (hset key (LParam p) (it_values it)) (it_refs it))) by (intros; apply reached_one, set_param; assumption).
    destruct (hget key (it_values it)) as [[p|c|l]|] eqn:Gv.
    + destruct (eqb_type (type_of p) t); apply Ok_inj, pair_equal_spec in E as [<- _]; [apply Go; exact I|constructor].
    + destruct (hget key (ld_members d)) as [[id [p0 vt|d'|d' u]]|] eqn:G; try (apply Ok_inj, pair_equal_spec in E as [<- _]; constructor). specialize (Free _ _ _ _ G). rewrite Gv in Free. destruct Free.
    + destruct (hget key (ld_members d)) as [[id [p0 vt|d'|d' u]]|] eqn:G; try (apply Ok_inj, pair_equal_spec in E as [<- _]; constructor). specialize (Free _ _ _ _ G). rewrite Gv in Free. destruct Free.
    + destruct (hget key (ld_members d)) as [[id [p0 vt|d'|d' u]]|] eqn:G; try (apply Ok_inj, pair_equal_spec in E as [<- _]; constructor).
      destruct (eqb_type (type_of p0) t); apply Ok_inj, pair_equal_spec in E as [<- _]; [|apply Go; exact I]. cbn [it_values it_refs]. rewrite hset_twice. apply Go; exact I.
  - unfold item_initial in E. destruct (hget key (ld_members d)) as [[id [p0 vt|d'|d' u]]|] eqn:G; apply Ok_inj, pair_equal_spec in E as [<- _]; try constructor.
    apply reached_one, set_param, (Free _ _ _ _ G).
  - apply Ok_inj, pair_equal_spec in E as [<- _]. apply reached_one, set_reference.
  - apply Ok_inj, pair_equal_spec in E as [<- _]. cbn. apply reached_one, set_kind, Ca.
  - unfold item_open in E. destruct (hget key (ld_members d)) as [[id [p0 vt|d'|d' u]]|] eqn:G; try (apply Ok_inj, pair_equal_spec in E as [<- _]; constructor).
    destruct (hget key (it_values it)) as [[p|c|[l|]]|] eqn:Gv; apply Ok_inj, pair_equal_spec in E as [<- _]; try constructor.
    + destruct (T3 _ _ Gv) as (i & p1 & vt & G1 & _). rewrite G in G1. discriminate.
    + destruct (T3 _ _ Gv) as (i & d1 & G1). rewrite G in G1. discriminate.
    + apply reached_one, open_list; [rewrite Gv; exact I|apply empty_list_T].
    + apply reached_one, open_list; [rewrite Gv; exact I|apply empty_list_T].
Qed.

Lemma nested_edit (it : item (mlistT n)) key l l' : hget key (it_values it) = Some (LMil (Some l)) -> reached (editT ord n) l l' ->
  reached ed it (Item (hset key (LMil (Some l')) (it_values it)) (it_refs it)).
Proof.
  intros G. induction 1 as [|b c R IH S].
  - rewrite (hset_same _ _ _ G). destruct it. constructor.
  - econstructor; [exact IH|]. rewrite <- (hset_twice key (LMil (Some c)) (LMil (Some b))).
    apply (edit_nested (empty_listT n) (editT ord n) (Item (hset key (LMil (Some b)) (it_values it)) (it_refs it)) key b c); [apply hget_hset_same|exact S].
Qed.

Lemma assign_edit (l : mlist (item (mlistT n))) id it it' : NoDup (ids (fst l)) -> lookup id (fst l) = Some it -> reached ed it it' ->
  reached (editT ord (S n)) l (assign id it' (fst l), snd l).
Proof.
  intros N G R. destruct (lookup_split _ _ _ G N) as (l1 & l2 & E & _ & _ & As & _). rewrite As. destruct l as [l next]. cbn [fst snd] in *. subst l.
  clear G N As. induction R as [|b c R IH S]; [constructor|]. econstructor; [exact IH|]. apply change_item, S.
Qed.
End Item.

Lemma empty_run_edit n st d l' b : list_run n st d (empty_list n d) = Ok (l', b) -> reached (editT ord n) (empty_list n d) l'.
Proof.
  destruct n as [|n]; [destruct d|]. destruct st as [o|id o|id key st]; cbn [list_run empty_list].
  - intros E. assert (N : NoDup (ids (@nil (Z * item (mlistT n))))) by constructor.
    destruct (list_do_cases ([], 0) l' o b N E) as [-> |[(l1 & l2 & next & -> & -> & _)|[(l1 & l2 & id & it & next & X & _)|(M & P & S)]]].
    + constructor.
    + apply reached_one, insert_item.
    + destruct l1; discriminate.
    + destruct l' as [l' nx]. cbn [fst snd] in *. apply Permutation_nil in P. subst l' nx. constructor.
  - cbn. intros E. apply Ok_inj, pair_equal_spec in E as [<- _]. constructor.
  - cbn. intros E. apply Ok_inj, pair_equal_spec in E as [<- _]. constructor.
Qed.

Lemma list_run_edit n : forall st d l l' b, few_defT n d -> typedT mem n l d -> calm_step ord n st l ->
  list_run n st d l = Ok (l', b) -> reached (editT ord n) l l'.
Proof.
  induction n as [|n IH]; intros st d l l' b; [destruct d|]. intros Few T Ca E. destruct Few as (_ & _ & Few). pose proof T as (N & _ & _ & _ & _ & _ & It).
  destruct st as [o|id o|id key st]; cbn [list_run calm_step] in E, Ca.
  - destruct (list_do_cases _ _ _ _ N E) as [-> |[(l1 & l2 & next & -> & -> & _)|[(l1 & l2 & id & it & next & -> & ->)|(M & P & S)]]].
    + constructor.
    + apply reached_one, insert_item.
    + apply reached_one. apply remove_item.
    + destruct l as [l nx], l' as [l' nx']. cbn [fst snd] in *. subst nx'. apply reached_one. apply move_items; [|exact P].
      destruct o; cbn in M, Ca; try destruct M; exact Ca.
  - destruct (lookup id (fst l)) as [it|] eqn:G; [|apply Ok_inj, pair_equal_spec in E as [<- _]; constructor].
    apply bind_ok in E as ([it' b'] & E1 & E2). apply Ok_inj, pair_equal_spec in E2 as [<- _].
    eapply assign_edit; [exact N|exact G|]. eapply item_do_edit; [apply (It _ _ G)|apply Ca; reflexivity|exact E1].
  - destruct (lookup id (fst l)) as [it|] eqn:G; [|apply Ok_inj, pair_equal_spec in E as [<- _]; constructor].
    pose proof (It _ _ G) as Ti. destruct (item_open it d key (empty_list n)) as [it1 r] eqn:Eo.
    assert (R1 : reached (edit_item (empty_listT n) (editT ord n)) it it1).
    { apply (item_do_edit n it it1 d (IOpen key) (is_some r)); [exact Ti|exact Logic.I|].
      exact (f_equal (fun x : item (mlistT n) * option (defT n * mlistT n) => let '(a, c) := x in Ok (a, is_some c)) Eo). }
    assert (T1 : typed_item mem (typedT mem n) it1 d).
    { apply (item_do_typed mem n it it1 d (IOpen key) (is_some r)); [exact Few|exact Ti|exact Logic.I|].
      exact (f_equal (fun x : item (mlistT n) * option (defT n * mlistT n) => let '(a, c) := x in Ok (a, is_some c)) Eo). }
    destruct r as [[d' l1]|]; [|apply Ok_inj, pair_equal_spec in E as [<- _]; constructor].
    apply bind_ok in E as ([l2 b'] & E1 & E2). apply Ok_inj, pair_equal_spec in E2 as [<- _].
    eapply assign_edit; [exact N|exact G|]. eapply reached_trans; [exact R1|]. unfold item_open in Eo.
    destruct (hget key (ld_members d)) as [[i [p0 vt|d0|d0 u]]|] eqn:Gd; try discriminate. destruct T1 as (_ & _ & T3 & _).
    destruct (hget key (it_values it)) as [[p|c|[l0|]]|] eqn:Gv; injection Eo as <- <- <-.
    3:{ apply (nested_edit n it key l0 l2 Gv). eapply IH; [apply (Few _ _ _ _ Gd)| |apply (Ca _ _ eq_refl Gv)|exact E1].
        destruct (T3 _ _ Gv) as (i' & d1 & u' & G1 & T4). pose proof (eq_trans (eq_sym Gd) G1) as G2. injection G2 as <- <- <-. exact T4. }
    all: apply (nested_edit n (Item (hset key (LMil (Some (empty_list n d0))) (it_values it)) (it_refs it)) key (empty_list n d0) l2);
      [apply hget_hset_same|apply (empty_run_edit n st d0 l2 b' E1)].
Qed.

Lemma root_run_edit n (s s' : sabun n) (def : rootdef n) o b : few_rootdef def -> typed_root mem s def -> lists_there def s ->
  (forall key id d, hget key def <> Some (id, RVMList d true)) ->
  match o with OInto key st => forall l, hget key s = Some (RMut (Some l)) -> calm_step ord n st l | _ => True end ->
  root_run def s o = Ok (s', b) -> reached (edit_root ord) s s' /\ lists_there def s'.
Proof.
  intros Few T Th Un Ca E. pose proof (typed_root_kinds mem s def T) as K. destruct T as (T1 & T3).
  assert (Same : reached (edit_root ord) s s /\ lists_there def s) by (split; [constructor|exact Th]).
  assert (Go : forall key p id p0 vt, hget key def = Some (id, RVParam p0 vt) -> reached (edit_root ord) s (hset key (RParam p) s) /\ lists_there def (hset key (RParam p) s)).
  { intros key p id p0 vt G. split.
    - apply reached_one, set_root_param. destruct (hget key s) as [v|] eqn:Gv; [|exact I]. destruct (K _ _ _ _ _ Gv G) as [q ->]. exact I.
    - intros k i d u Gk. destruct (name_dec k key) as [->|Hk]; [rewrite hget_hset_same; discriminate|]. rewrite hget_hset_other by exact Hk. apply (Th _ _ _ _ Gk). }
  assert (Open : forall key s1 r, root_open s def key (empty_list n) = (s1, r) -> s1 = s /\ forall d l, r = Some (d, l) ->
      hget key s = Some (RMut (Some l)) /\ exists id u, hget key def = Some (id, RVMList d u) /\ typedT mem n l d).
  { intros key s1 r Eo. unfold root_open in Eo. destruct (hget key def) as [[id [p vt| | |d u]]|] eqn:G; try (apply pair_equal_spec in Eo as [<- <-]; split; [reflexivity|discriminate]).
    destruct (hget key s) as [v|] eqn:Gs; [|destruct (Th _ _ _ _ G Gs)]. pose proof (T3 _ _ Gs) as Tv. destruct v as [p|[l|]].
    - destruct Tv as (i & p0 & vt & G1 & _). congruence.
    - apply pair_equal_spec in Eo as [<- <-]. split; [reflexivity|]. intros d' l' Ed. injection Ed as <- <-. split; [reflexivity|]. exists id, u. split; [reflexivity|].
      destruct Tv as (i & d1 & u1 & G1 & T4). rewrite G in G1. injection G1 as <- <- <-. exact T4.
    - destruct Tv as (i & d1 & u1 & G1 & ->). destruct (Un _ _ _ G1). }
  destruct o as [key p|key t a new|key a len|key|key st]; cbn [root_run] in *.
  - unfold root_set in E. destruct (hget key def) as [[id [p0 vt| | |d u]]|] eqn:G; try (apply Ok_inj, pair_equal_spec in E as [<- _]; exact Same).
    destruct (verify_set_sabun p0 vt p); apply Ok_inj, pair_equal_spec in E as [<- _]; [|exact Same]. apply (Go _ _ _ _ _ G).
  - unfold root_write, root_param_mut in E. destruct (hget key s) as [[p|l]|] eqn:Gv.
    + destruct (T3 _ _ Gv) as (id & p0 & vt & G & _). destruct (eqb_type (type_of p) t); apply Ok_inj, pair_equal_spec in E as [<- _]; [|exact Same]. apply (Go _ _ _ _ _ G).
    + destruct (T3 _ _ Gv) as (id & d & u & G & _). rewrite G in E. apply Ok_inj, pair_equal_spec in E as [<- _]; exact Same.
    + destruct (hget key def) as [[id [p0 vt| | |d u]]|] eqn:G; try (apply Ok_inj, pair_equal_spec in E as [<- _]; exact Same).
      destruct (eqb_type (type_of p0) t); apply Ok_inj, pair_equal_spec in E as [<- _]; [|apply (Go _ _ _ _ _ G)]. rewrite hset_twice. apply (Go _ _ _ _ _ G).
  - unfold root_initial in E. destruct (hget key def) as [[id [p0 vt| | |d u]]|] eqn:G; apply Ok_inj, pair_equal_spec in E as [<- _]; try exact Same.
    apply (Go _ _ _ _ _ G).
  - destruct (root_open s def key (empty_list n)) as [s1 r] eqn:Eo. apply Ok_inj, pair_equal_spec in E as [<- _].
    destruct (Open _ _ _ Eo) as [-> _]. exact Same.
  - destruct (root_open s def key (empty_list n)) as [s1 r] eqn:Eo. destruct (Open _ _ _ Eo) as [-> H].
    destruct r as [[d l]|]; [|apply Ok_inj, pair_equal_spec in E as [<- _]; exact Same].
    destruct (H _ _ eq_refl) as (Gs & id & u & G & Tl). apply bind_ok in E as ([l2 b'] & E1 & E2). apply Ok_inj, pair_equal_spec in E2 as [<- _].
    pose proof (list_run_edit n st d l l2 b' (Few _ _ _ _ G) Tl (Ca _ Gs) E1) as R. split.
    + clear - R Gs. induction R as [|x y R IH S].
      * rewrite (hset_same _ _ _ Gs). constructor.
      * econstructor; [exact IH|]. rewrite <- (hset_twice key (RMut (Some y)) (RMut (Some x))). eapply edit_root_list; [apply hget_hset_same|exact S].
    + intros k i d' u' Gk. destruct (name_dec k key) as [->|Hk]; [rewrite hget_hset_same; discriminate|]. rewrite hget_hset_other by exact Hk. apply (Th _ _ _ _ Gk).
Qed.

Theorem program_edit n (def : rootdef n) ops : few_rootdef def -> (forall key id d, hget key def <> Some (id, RVMList d true)) ->
  Forall (ok_root_step mem def) ops -> forall s s', typed_root mem s def -> lists_there def s -> calm_program ord def s ops ->
  program_run def s ops = Ok s' -> reached (edit_root ord) s s' /\ lists_there def s'.
Proof.
  intros Few Un F. induction F as [|o ops O F IH]; intros s s' T Th Ca E; unfold program_run in E; cbn [mfold] in E.
  - apply Ok_inj in E; subst s'. split; [constructor|exact Th].
  - apply bind_ok in E as (s1 & E1 & E2). apply bind_ok in E1 as ([s2 b] & E1 & E3). apply Ok_inj in E3; subst s2. destruct Ca as [C1 C2].
    destruct (root_run_edit n s s1 def o b Few T Th Un C1 E1) as [R Th']. 
    destruct (IH s1 s') as [R' Th'']; [eapply root_run_typed; eassumption|exact Th'|apply (C2 _ _ E1)|exact E2|].
    split; [eapply reached_trans; eassumption|exact Th''].
Qed.
End Edits.
