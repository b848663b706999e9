From Verif Require Import Base FileNameModel FileNameSpec FileNameProofs TreeModel TreeSpec.

(** ** Sorted maps *)

Definition keys {A} (m : list (Z * A)) : list Z := map fst m.
Definition sorted {A} (m : list (Z * A)) : Prop := StronglySorted Z.lt (keys m).

Lemma bt_get_in {A} k (v : A) m : bt_get k m = Some v -> In (k, v) m.
Proof.
  induction m as [|[x a] m IH]; cbn [bt_get]; [discriminate|]. destruct (Z.eqb_spec k x) as [->|N]; intros H.
  - apply Some_inj in H. subst. now left.
  - right. auto.
Qed.
Lemma in_bt_get {A} k (v : A) m : sorted m -> In (k, v) m -> bt_get k m = Some v.
Proof.
  unfold sorted. induction m as [|[x a] m IH]; intros S I; [destruct I|]. inversion S; subst. cbn [bt_get keys map fst] in *.
  destruct I as [E|I].
  - inversion E; subst. now rewrite Z.eqb_refl.
  - destruct (Z.eqb_spec k x) as [->|N]; [|auto]. exfalso. rewrite Forall_forall in H2. specialize (H2 x (in_map fst _ _ I)). lia.
Qed.
Lemma bt_get_insert {A} k k' (v : A) m : bt_get k' (bt_insert k v m) = if k' =? k then Some v else bt_get k' m.
Proof.
  induction m as [|[x a] m IH]; cbn [bt_insert bt_get]; [reflexivity|].
  destruct (Z.ltb_spec k x).
  - cbn [bt_get]. reflexivity.
  - destruct (Z.eqb_spec k x) as [->|N]; cbn [bt_get].
    + destruct (k' =? x); reflexivity.
    + rewrite IH. destruct (Z.eqb_spec k' x) as [->|]; [|reflexivity]. destruct (Z.eqb_spec x k); [lia|reflexivity].
Qed.
Lemma in_bt_insert {A} k (v : A) m k' v' : In (k', v') (bt_insert k v m) -> (k' = k /\ v' = v) \/ In (k', v') m.
Proof.
  induction m as [|[x a] m IH]; cbn [bt_insert]; [intros [E|[]]; inversion E; auto|].
  destruct (k <? x); [intros [E|I]; [inversion E; auto|auto]|].
  destruct (k =? x); (intros [E|I]; [inversion E; subst; cbn [In]; auto|]); [right; now right|].
  destruct (IH I) as [?|?]; [auto|right; now right].
Qed.
Lemma bt_insert_in {A} k (v : A) m : In (k, v) (bt_insert k v m).
Proof.
  induction m as [|[x a] m IH]; cbn [bt_insert]; [now left|]. destruct (k <? x); [now left|]. destruct (k =? x); [now left|now right].
Qed.
Lemma bt_insert_keep {A} k (v : A) m k' v' : k' <> k -> In (k', v') m -> In (k', v') (bt_insert k v m).
Proof.
  intros N. induction m as [|[x a] m IH]; cbn [bt_insert]; [intros []|]. intros I. destruct (k <? x); [now right|].
  destruct (Z.eqb_spec k x) as [->|Q]; (destruct I as [E|I]; [inversion E; subst|]).
  - lia.
  - now right.
  - now left.
  - right. auto.
Qed.
Lemma bt_insert_sorted {A} k (v : A) m : sorted m -> sorted (bt_insert k v m).
Proof.
  unfold sorted. induction m as [|[x a] m IH]; intros S; cbn [bt_insert].
  - constructor; constructor.
  - cbn [keys map fst] in S. inversion S as [|? ? S' F]; subst. destruct (Z.ltb_spec k x).
    + cbn [keys map fst]. constructor; [constructor; assumption|]. constructor; [assumption|]. eapply Forall_impl; [|exact F]. cbn. lia.
    + destruct (Z.eqb_spec k x) as [->|N]; cbn [keys map fst]; (constructor; [auto|]).
      * exact F.
      * apply Forall_forall. intros y I. apply in_map_iff in I as ([y' b] & <- & I). cbn [fst].
        apply in_bt_insert in I as [[-> _]|I]; [lia|]. rewrite Forall_forall in F. apply F. now apply (in_map fst) in I.
Qed.
Lemma bt_last_of {A} (m : list (Z * A)) : bt_last m = last_of m.
Proof.
  unfold last_of. induction m as [|e m IH]; [reflexivity|]. cbn [bt_last rev]. destruct m as [|e' m]; [reflexivity|].
  rewrite IH. cbn [rev]. destruct (rev m ++ [e']) eqn:E; [|reflexivity]. destruct (rev m); discriminate.
Qed.
Lemma last_of_app {A} (l m : list A) : last_of (l ++ m) = match last_of m with Some x => Some x | None => last_of l end.
Proof. unfold last_of. rewrite rev_app_distr. destruct (rev m); reflexivity. Qed.
Lemma last_of_none {A} (l : list A) : last_of l = None -> l = [].
Proof. unfold last_of. destruct (rev l) eqn:E; [|discriminate]. intros _. rewrite <- (rev_involutive l), E. reflexivity. Qed.
Lemma last_of_snoc {A} (l : list A) x : last_of l = Some x -> exists l', l = l' ++ [x].
Proof.
  unfold last_of. destruct (rev l) as [|y r] eqn:E; [discriminate|]. intros H. apply Some_inj in H. subst y.
  exists (rev r). rewrite <- (rev_involutive l), E. reflexivity.
Qed.

(** ** The zipper is a merge *)

Fixpoint merge {A B} (a : list (Z * A)) : list (Z * B) -> list (Z * option B * option A) :=
  fix go b :=
  match a, b with
  | [], [] => []
  | (x, p) :: a', [] => (x, None, Some p) :: merge a' []
  | [], (y, h) :: b' => (y, Some h, None) :: go b'
  | (x, p) :: a', (y, h) :: b' =>
      if x <? y then (x, None, Some p) :: merge a' b
      else if y <? x then (y, Some h, None) :: go b'
      else (x, Some h, Some p) :: merge a' b'
  end.

Definition small {A} (m : list (Z * A)) : Prop := Forall (fun k => 0 <= k < i64_max) (keys m).

(** the state after reading the heads of [a] and [b] *)
Definition hk {A} (l : list (Z * A)) : Z := match l with [] => i64_max | e :: _ => fst e end.
Definition hv {A} (l : list (Z * A)) : option A := match l with [] => None | e :: _ => Some (snd e) end.
Definition loaded {A B} (a : list (Z * A)) (b : list (Z * B)) : zipper A B :=
  Zipper (tl a) (tl b) (hk a) (hk b) (hv a) (hv b).

(** the state [z] has still to give out [a] and [b] *)
Definition pending {A B} (z : zipper A B) (a : list (Z * A)) (b : list (Z * B)) : Prop :=
  z = Zipper a b (-1) (-1) None None \/
  exists a0 b0, z = loaded a0 b0 /\ small a0 /\ small b0 /\
    a = (if hk b0 <? hk a0 then a0 else tl a0) /\ b = (if hk a0 <? hk b0 then b0 else tl b0).

Lemma hk_small {A} (l : list (Z * A)) : small l -> (l = [] /\ hk l = i64_max) \/ (l <> [] /\ 0 <= hk l < i64_max).
Proof. destruct l as [|e l]; intros H; [now left|right]. split; [discriminate|]. now inversion H. Qed.

Lemma move_props_loaded {A B} (a : list (Z * A)) (b : list (Z * B)) : move_props (loaded a b) = loaded (tl a) b.
Proof. unfold move_props, loaded. cbn [z_props]. destruct (tl a) as [|[k p] r]; reflexivity. Qed.
Lemma move_his_loaded {A B} (a : list (Z * A)) (b : list (Z * B)) : move_his (loaded a b) = loaded a (tl b).
Proof. unfold move_his, loaded. cbn [z_his]. destruct (tl b) as [|[k p] r]; reflexivity. Qed.

Lemma z_next_pending {A B} (z : zipper A B) a b : pending z a b -> small a -> small b ->
  z_next z = match a, b with
             | [], [] => None
             | _, _ => Some ((if hk a =? hk b then (hk a, hv b, hv a)
                              else if hk a <? hk b then (hk a, None, hv a) else (hk b, hv b, None)), loaded a b)
             end.
Proof.
  intros P Sa Sb. unfold z_next.
  assert (E : (cur_props z =? cur_his z) && (cur_props z =? i64_max) = false ->
    (if cur_props z =? cur_his z then move_his (move_props z) else if cur_props z <? cur_his z then move_props z else move_his z) = loaded a b).
  { destruct P as [->|(a0 & b0 & -> & S1 & S2 & -> & ->)]; intros _.
    - cbn. unfold move_props, move_his, loaded. destruct a as [|[k p] a], b as [|[k' h] b]; reflexivity.
    - rewrite move_props_loaded, !move_his_loaded. change (cur_props (loaded a0 b0)) with (hk a0). change (cur_his (loaded a0 b0)) with (hk b0).
      destruct (Z.eqb_spec (hk a0) (hk b0)) as [Q|Q].
      + rewrite Q, Z.ltb_irrefl. reflexivity.
      + destruct (Z.ltb_spec (hk a0) (hk b0)), (Z.ltb_spec (hk b0) (hk a0)); try lia; reflexivity. }
  assert (X : (cur_props z =? cur_his z) && (cur_props z =? i64_max) = true -> a = [] /\ b = []).
  { destruct P as [->|(a0 & b0 & -> & S1 & S2 & -> & ->)]; [discriminate|]. unfold loaded; cbn [cur_props cur_his]. intros H.
    destruct (hk_small _ S1) as [[-> H1]|[? H1]], (hk_small _ S2) as [[-> H2]|[? H2]]; try lia. split; reflexivity. }
  destruct ((cur_props z =? cur_his z) && (cur_props z =? i64_max)) eqn:C.
  - destruct (X eq_refl) as [-> ->]. reflexivity.
  - rewrite (E eq_refl). unfold loaded; cbn [cur_props cur_his r_props r_his].
    destruct (hk_small _ Sa) as [[-> H1]|[Na H1]], (hk_small _ Sb) as [[-> H2]|[Nb H2]].
    + cbn [hk]. rewrite Z.eqb_refl. reflexivity.
    + destruct b; [congruence|]. cbn [hk] in *. destruct (Z.eqb_spec i64_max (fst p)); [lia|]. destruct (i64_max <? fst p); reflexivity.
    + destruct a; [congruence|]. cbn [hk] in *. destruct (Z.eqb_spec (fst p) i64_max); [lia|]. destruct (fst p <? i64_max); reflexivity.
    + destruct a; [congruence|]. destruct b; [congruence|]. cbn [hk] in *. destruct (fst p =? fst p0).
      * destruct (Z.eqb_spec (fst p) i64_max); [lia|reflexivity].
      * destruct (fst p <? fst p0); reflexivity.
Qed.

Lemma small_tl {A} (e : Z * A) l : small (e :: l) -> small l.
Proof. unfold small. cbn [keys map]. intros H. now inversion H. Qed.

Lemma z_run_merge {A B} : forall fuel (z : zipper A B) a b, pending z a b -> small a -> small b ->
  (length a + length b < fuel)%nat -> z_run fuel z = merge a b.
Proof.
  induction fuel as [|fuel IH]; intros z a b P Sa Sb L; [lia|]. cbn [z_run]. rewrite (z_next_pending z a b P Sa Sb).
  assert (G : forall a' b', a' = (if hk b <? hk a then a else tl a) -> b' = (if hk a <? hk b then b else tl b) ->
    (length a' + length b' < fuel)%nat -> small a' -> small b' -> z_run fuel (loaded a b) = merge a' b').
  { intros a' b' Ea Eb L' S1 S2. apply IH; auto. right. exists a, b. auto. }
  destruct a as [|[x p] a], b as [|[y h] b].
  - reflexivity.
  - pose proof Sb as Sb0. inversion Sb0; subst. cbn [hk hv fst snd] in *. destruct (Z.eqb_spec i64_max y); [lia|]. destruct (Z.ltb_spec i64_max y); [lia|].
    change (merge [] ((y, h) :: b)) with ((y, Some h, @None A) :: merge [] b). f_equal.
    apply G; cbn [tl length] in *; auto; try (destruct (Z.ltb_spec i64_max x); [lia|reflexivity]); try (destruct (Z.ltb_spec y x); [lia|reflexivity]); try (destruct (Z.ltb_spec y i64_max); [reflexivity|lia]); try lia; eapply small_tl; eassumption.
  - pose proof Sa as Sa0. inversion Sa0; subst. cbn [hk hv fst snd] in *. destruct (Z.eqb_spec x i64_max); [lia|]. destruct (Z.ltb_spec x i64_max); [|lia].
    change (merge ((x, p) :: a) []) with ((x, @None B, Some p) :: merge a []). f_equal.
    apply G; cbn [tl length] in *; auto; try (destruct (Z.ltb_spec i64_max x); [lia|reflexivity]); try (destruct (Z.ltb_spec y x); [lia|reflexivity]); try (destruct (Z.ltb_spec y i64_max); [reflexivity|lia]); try lia; eapply small_tl; eassumption.
  - cbn [hk hv fst snd] in *.
    change (merge ((x, p) :: a) ((y, h) :: b)) with
      (if x <? y then (x, @None B, Some p) :: merge a ((y, h) :: b) else if y <? x then (y, Some h, @None A) :: merge ((x, p) :: a) b
       else (x, Some h, Some p) :: merge a b).
    cbn [length] in L. destruct (Z.eqb_spec x y) as [->|N].
    + rewrite Z.ltb_irrefl. f_equal. apply G; rewrite ?Z.ltb_irrefl; cbn [tl]; auto; try (destruct (Z.ltb_spec i64_max x); [lia|reflexivity]); try (destruct (Z.ltb_spec y x); [lia|reflexivity]); try (destruct (Z.ltb_spec y i64_max); [reflexivity|lia]); try lia; eapply small_tl; eassumption.
    + destruct (Z.ltb_spec x y) as [Q|Q].
      * f_equal. apply G; cbn [tl length]; auto; try (destruct (Z.ltb_spec i64_max x); [lia|reflexivity]); try (destruct (Z.ltb_spec y x); [lia|reflexivity]); try (destruct (Z.ltb_spec y i64_max); [reflexivity|lia]); try lia; eapply small_tl; eassumption.
      * destruct (Z.ltb_spec y x); [|lia]. f_equal. apply G; cbn [tl length]; auto; try (destruct (Z.ltb_spec i64_max x); [lia|reflexivity]); try (destruct (Z.ltb_spec y x); [lia|reflexivity]); try (destruct (Z.ltb_spec y i64_max); [reflexivity|lia]); try lia; eapply small_tl; eassumption.
Qed.

Lemma zip_merge {A B} (a : list (Z * A)) (b : list (Z * B)) : small a -> small b -> zip a b = merge a b.
Proof. intros Sa Sb. unfold zip. apply z_run_merge; auto. now left. Qed.

(** ** What a sound tree holds *)

Inductive tree_ok : list Z -> tree -> Prop :=
| tree_ok_node prefix ch it : sorted ch -> sorted it -> small ch -> small it ->
    (forall k p, In (k, p) it -> position p = prefix ++ [k]) ->
    (forall k t, In (k, t) ch -> tree_ok (prefix ++ [k]) t) ->
    (forall k t, In (k, t) ch -> flatten t <> []) ->
    tree_ok prefix (Node ch it).

Definition out (e : Z * option (list props) * option props) : list props :=
  match e with
  | (_, child, p) => (match p with Some p => [p] | None => [] end) ++ (match child with Some l => l | None => [] end)
  end.

Lemma keys_map {A B} (f : A -> B) (l : list (Z * A)) : keys (map (fun e => (fst e, f (snd e))) l) = keys l.
Proof. unfold keys. rewrite map_map. reflexivity. Qed.

Lemma flatten_merge ch it : small ch -> small it ->
  flatten (Node ch it) = flat_map out (merge it (map (fun e => (fst e, flatten (snd e))) ch)).
Proof.
  intros S1 S2. cbn [flatten]. rewrite zip_merge; [reflexivity|assumption|]. unfold small. now rewrite keys_map.
Qed.

Lemma in_merge a b x : In x (flat_map out (merge a b)) <->
  (exists k, In (k, x) a) \/ (exists k l, In (k, l) b /\ In x l).
Proof.
  revert b. induction a as [|[k p] a IHa].
  - induction b as [|[y h] b IHb].
    + cbn. split; [intros []|intros [[k []]|(k & l & [] & _)]].
    + change (merge [] ((y, h) :: b)) with ((y, Some h, @None props) :: merge [] b). cbn [flat_map out app].
      rewrite in_app_iff, IHb. split.
      * intros [I|[[k []]|(k & l & I & J)]]; right; [exists y, h; split; [now left|assumption]|exists k, l; split; [now right|assumption]].
      * intros [[k []]|(k & l & [E|I] & J)]; [inversion E; subst; now left|]. right; right. eauto.
  - induction b as [|[y h] b IHb].
    + change (merge ((k, p) :: a) []) with ((k, @None (list props), Some p) :: merge a []). cbn [flat_map out app].
      cbn [In]. rewrite IHa. split.
      * intros [->|[[k' I]|(k' & l & [] & _)]]; left; [exists k; now left|exists k'; now right].
      * intros [[k' [E|I]]|(k' & l & [] & _)]; [inversion E; subst; now left|right; left; eauto].
    + change (merge ((k, p) :: a) ((y, h) :: b)) with
      (if k <? y then (k, @None (list props), Some p) :: merge a ((y, h) :: b) else if y <? k then (y, Some h, @None props) :: merge ((k, p) :: a) b
       else (k, Some h, Some p) :: merge a b).
      destruct (k <? y); [|destruct (y <? k)]; cbn [flat_map out app].
      * cbn [In]. rewrite IHa. cbn [In]. split.
        -- intros [->|[[k' I]|(k' & l & I & J)]]; [left; exists k; now left|left; exists k'; now right|right; eauto].
        -- intros [[k' [E|I]]|(k' & l & I & J)]; [inversion E; subst; now left|right; left; eauto|right; right; eauto].
      * rewrite in_app_iff, IHb. cbn [In]. split.
        -- intros [I|[?|(k' & l & I & J)]]; [right; exists y, h; auto|now left|right; exists k', l; auto].
        -- intros [?|(k' & l & [E|I] & J)]; [now auto|inversion E; subst; now left|right; right; eauto].
      * cbn [In]. rewrite in_app_iff, IHa. cbn [In]. split.
        -- intros [->|[I|[[k' I]|(k' & l & I & J)]]]; [left; exists k; auto|right; exists y, h; auto|left; exists k'; auto|right; exists k', l; auto].
        -- intros [[k' [E|I]]|(k' & l & [E|I] & J)]; [inversion E; subst; now left|eauto|inversion E; subst; now auto|].
           right. right. right. eauto.
Qed.

Lemma in_flatten ch it p : small ch -> small it ->
  In p (flatten (Node ch it)) <-> (exists k, In (k, p) it) \/ (exists k t, In (k, t) ch /\ In p (flatten t)).
Proof.
  intros S1 S2. rewrite flatten_merge by assumption. rewrite in_merge. split; (intros [?|(k & x & I & J)]; [now left|right]).
  - apply in_map_iff in I as ([k' t] & E & I). cbn [fst snd] in E. inversion E; subst. eauto.
  - exists k, (flatten x). split; [|assumption]. apply in_map_iff. exists (k, x). auto.
Qed.

Lemma tree_positions prefix t : tree_ok prefix t -> forall p, In p (flatten t) ->
  exists s, s <> [] /\ position p = prefix ++ s /\ item_get s t = Some p.
Proof.
  induction 1 as [prefix ch it So1 So2 Sm1 Sm2 Hit Hch IH Hne]. intros p I. apply in_flatten in I as [[k I]|(k & t & I & J)]; try assumption.
  - exists [k]. split; [discriminate|]. split; [eauto|]. cbn [item_get items]. now apply in_bt_get.
  - destruct (IH k t I p J) as (s & N & E & G). exists (k :: s). split; [discriminate|].
    split; [rewrite E, <- app_assoc; reflexivity|]. cbn [item_get children]. destruct s as [|s0 s]; [congruence|].
    now rewrite (in_bt_get k t).
Qed.

Lemma item_get_flatten prefix t : tree_ok prefix t -> forall s p, item_get s t = Some p ->
  In p (flatten t) /\ position p = prefix ++ s.
Proof.
  induction 1 as [prefix ch it So1 So2 Sm1 Sm2 Hit Hch IH Hne]. intros s p G. destruct s as [|k s]; [discriminate|].
  cbn [item_get items children] in G. destruct s as [|s0 s].
  - apply bt_get_in in G. split; [apply in_flatten; eauto|eauto].
  - destruct (bt_get k ch) as [t|] eqn:E; [|discriminate]. apply bt_get_in in E. destruct (IH k t E _ _ G) as [I P].
    split; [apply in_flatten; eauto 6|]. rewrite P, <- app_assoc. reflexivity.
Qed.

(** *** the order *)

Lemma earlier_app pre a b : earlier (pre ++ a) (pre ++ b) <-> earlier a b.
Proof. induction pre as [|x pre IH]; [reflexivity|]. cbn [app earlier]. rewrite IH. split; [intros [?|[_ ?]]; [lia|assumption]|auto]. Qed.
Lemma earlier_irrefl a : ~ earlier a a.
Proof. induction a as [|x a IH]; cbn [earlier]; [auto|]. intros [?|[_ ?]]; [lia|auto]. Qed.
Lemma earlier_trans a b c : earlier a b -> earlier b c -> earlier a c.
Proof.
  revert b c. induction a as [|x a IH]; intros [|y b] [|z c]; cbn [earlier]; try tauto.
  intros [?|[-> H]] [?|[-> H']]; [left; lia|left; lia|left; lia|right; eauto].
Qed.
Lemma earlier_nil s : s <> [] -> earlier [] s.
Proof. destruct s; [congruence|now intros]. Qed.

Definition before (p q : props) : Prop := earlier (position p) (position q).

Lemma sorted_app (l m : list props) : chronological l -> chronological m ->
  (forall p q, In p l -> In q m -> before p q) -> chronological (l ++ m).
Proof.
  unfold chronological. induction l as [|x l IH]; intros S1 S2 C; [assumption|]. inversion S1 as [|? ? S1' F]; subst. cbn [app]. constructor.
  - apply IH; auto. intros p q I J. apply C; [now right|assumption].
  - apply Forall_app. split; [assumption|]. apply Forall_forall. intros q J. apply C; [now left|assumption].
Qed.

(** every file of [l] is under [prefix ++ [k]] *)
Definition under (pk : list Z) (l : list props) : Prop := forall p, In p l -> exists s, s <> [] /\ position p = pk ++ s.

Lemma sorted_cons_lt {A} k (v : A) m : sorted ((k, v) :: m) -> sorted m /\ forall k' v', In (k', v') m -> k < k'.
Proof.
  unfold sorted. cbn [keys map fst]. intros S. inversion S as [|? ? S' F]; subst. split; [assumption|]. intros k' v' I.
  rewrite Forall_forall in F. apply F. apply (in_map fst _ _ I).
Qed.

Lemma merge_sorted prefix a b : sorted a -> sorted b ->
  (forall k p, In (k, p) a -> position p = prefix ++ [k]) ->
  (forall k l, In (k, l) b -> chronological l /\ under (prefix ++ [k]) l) ->
  chronological (flat_map out (merge a b)).
Proof.
  intros Sa. revert b.
  assert (X : forall k s k' s', k < k' -> earlier (prefix ++ k :: s) (prefix ++ k' :: s')).
  { intros k s k' s' L. apply earlier_app. cbn [earlier]. now left. }
  assert (Low : forall a b (Ha : forall k p, In (k, p) a -> position p = prefix ++ [k])
     (Hb : forall k l, In (k, l) b -> chronological l /\ under (prefix ++ [k]) l) q, In q (flat_map out (merge a b)) ->
     exists k s, position q = prefix ++ k :: s /\ ((exists p, In (k, p) a) \/ (exists l, In (k, l) b))).
  { intros a' b' Ha Hb q I. apply in_merge in I as [[k I]|(k & l & I & J)].
    - exists k, []. split; [eauto|]. left; eauto.
    - destruct (Hb k l I) as [_ U]. destruct (U q J) as (s & _ & E). exists k, s. rewrite E, <- app_assoc. split; [reflexivity|right; eauto]. }
  induction a as [|[k p] a IHa].
  - intros b Sb Ha Hb. induction b as [|[y h] b IHb]; [constructor|].
    change (merge [] ((y, h) :: b)) with ((y, Some h, @None props) :: merge [] b). cbn [flat_map out app].
    apply sorted_cons_lt in Sb as [Sb Lt]. destruct (Hb y h (or_introl eq_refl)) as [C U].
    apply sorted_app; [assumption|apply IHb; auto; intros k l I; apply Hb; now right|].
    intros p q I J. destruct (U p I) as (s & _ & E). apply Low in J as (k & s' & E' & [[? []]|[l L]]); auto.
    + unfold before. rewrite E, E', <- app_assoc. apply X. eauto.
    + intros k l I'. apply Hb; now right.
  - apply sorted_cons_lt in Sa as [Sa LtA]. specialize (IHa Sa). intros b Sb Ha.
    assert (Ha' : forall k p, In (k, p) a -> position p = prefix ++ [k]) by (intros; apply Ha; now right).
    assert (Pp : position p = prefix ++ [k]) by (apply Ha; now left).
    assert (One : forall m, chronological m -> (forall q, In q m -> before p q) -> chronological (p :: m)).
    { intros m S F. constructor; [assumption|]. apply Forall_forall. exact F. }
    induction b as [|[y h] b IHb]; intros Hb.
    + change (merge ((k, p) :: a) []) with ((k, @None (list props), Some p) :: merge a []). cbn [flat_map out app].
      apply One; [apply IHa; auto|]. intros q J. apply Low in J as (k' & s' & E' & [[? J]|[l []]]); auto.
      unfold before. rewrite Pp, E'. apply X. eauto.
    + apply sorted_cons_lt in Sb as [Sb LtB]. destruct (Hb y h (or_introl eq_refl)) as [C U].
      assert (Hb' : forall k l, In (k, l) b -> chronological l /\ under (prefix ++ [k]) l) by (intros; apply Hb; now right).
      assert (Sb1 : sorted ((y, h) :: b)).
      { unfold sorted. cbn [keys map fst]. constructor; [assumption|]. apply Forall_forall. intros z J. apply in_map_iff in J as ([z' v] & <- & J). eauto. }
      change (merge ((k, p) :: a) ((y, h) :: b)) with
      (if k <? y then (k, @None (list props), Some p) :: merge a ((y, h) :: b) else if y <? k then (y, Some h, @None props) :: merge ((k, p) :: a) b
       else (k, Some h, Some p) :: merge a b).
      destruct (Z.ltb_spec k y) as [L|L]; [|destruct (Z.ltb_spec y k) as [L'|L']]; cbn [flat_map out app].
      * apply One; [apply IHa; auto|]. intros q J. apply Low in J as (k' & s' & E' & J); auto.
        unfold before. rewrite Pp, E'. apply X. destruct J as [[? J]|[l [J|J]]]; [eauto|inversion J; subst; assumption|]. specialize (LtB _ _ J). lia.
      * apply sorted_app; [assumption|apply IHb; auto|]. intros r q I J. destruct (U r I) as (s & _ & E).
        apply Low in J as (k' & s' & E' & J); auto. unfold before. rewrite E, E', <- app_assoc. apply X.
        destruct J as [[? [J|J]]|[l J]]; [inversion J; subst; assumption|specialize (LtA _ _ J); lia|eauto].
      * replace y with k in * by lia. apply One.
        -- apply sorted_app; [assumption|apply IHa; auto|]. intros r q I J. destruct (U r I) as (s & _ & E).
           apply Low in J as (k' & s' & E' & J); auto. unfold before. rewrite E, E', <- app_assoc. apply X. destruct J as [[? J]|[l J]]; eauto.
        -- intros q J. apply in_app_or in J as [J|J].
           ++ destruct (U q J) as (s & N & E). unfold before. rewrite Pp, E. rewrite <- (app_nil_r (prefix ++ [k])) at 1.
              apply earlier_app, earlier_nil, N.
           ++ apply Low in J as (k' & s' & E' & J); auto. unfold before. rewrite Pp, E'. apply X. destruct J as [[? J]|[l J]]; eauto.
Qed.

Lemma tree_under prefix t : tree_ok prefix t -> under prefix (flatten t).
Proof. intros T p I. destruct (tree_positions prefix t T p I) as (s & N & E & _). eauto. Qed.

Lemma flatten_sorted prefix t : tree_ok prefix t -> chronological (flatten t).
Proof.
  induction 1 as [prefix ch it So1 So2 Sm1 Sm2 Hit Hch IH Hne]. rewrite flatten_merge by assumption.
  apply (merge_sorted prefix); auto.
  - unfold sorted. now rewrite keys_map.
  - intros k l I. apply in_map_iff in I as ([k' t] & E & I). cbn [fst snd] in E. inversion E; subst.
    split; [eauto|]. apply tree_under. auto.
Qed.

(** *** the newest *)

Lemma sorted_last {A} (m : list (Z * A)) k v : sorted m -> bt_last m = Some (k, v) ->
  In (k, v) m /\ forall k' v', In (k', v') m -> k' < k \/ (k' = k /\ v' = v).
Proof.
  induction m as [|[x a] m IH]; intros S E; [discriminate|]. pose proof S as S0. apply sorted_cons_lt in S0 as [S' Lt].
  cbn [bt_last] in E. destruct m as [|e m].
  - apply Some_inj in E. inversion E; subst. split; [now left|]. intros k' v' [I|[]]. inversion I; subst. now right.
  - destruct (IH S' E) as [I M]. split; [now right|]. intros k' v' [J|J]; [|auto]. inversion J; subst. left. eauto.
Qed.
Lemma bt_last_none {A} (m : list (Z * A)) : bt_last m = None -> m = [].
Proof. rewrite bt_last_of. apply last_of_none. Qed.

Definition newest_in (l : list props) (o : option props) : Prop :=
  match o with
  | Some p => In p l /\ forall q, In q l -> q = p \/ before q p
  | None => l = []
  end.

Lemma newest_last l o : chronological l -> newest_in l o -> o = last_of l.
Proof.
  intros C. destruct o as [p|]; cbn [newest_in]; [|now intros ->]. intros [I M].
  destruct (last_of l) as [x|] eqn:E; [|apply last_of_none in E; subst; destruct I]. f_equal.
  apply last_of_snoc in E as [l' ->]. apply in_app_or in I as [I|[I|[]]]; [|auto]. exfalso.
  assert (B : before p x).
  { clear M. unfold chronological in C. induction l' as [|y l' IH]; [destruct I|]. cbn [app] in C. inversion C as [|? ? C' F]; subst.
    destruct I as [->|I]; [|auto]. rewrite Forall_forall in F. apply F. apply in_or_app. right. now left. }
  destruct (M x) as [->|B']; [apply in_or_app; right; now left|apply (earlier_irrefl _ B)|].
  apply (earlier_irrefl (position p)). eapply earlier_trans; eassumption.
Qed.

Lemma item_newest_in prefix t : tree_ok prefix t -> newest_in (flatten t) (item_newest t).
Proof.
  induction 1 as [prefix ch it So1 So2 Sm1 Sm2 Hit Hch IH Hne]. cbn [item_newest].
  assert (So1' : sorted (map (fun e => (fst e, item_newest (snd e))) ch)) by (unfold sorted; now rewrite keys_map).
  assert (X : forall k s k' s', k < k' -> earlier (prefix ++ k :: s) (prefix ++ k' :: s')).
  { intros k s k' s' L. apply earlier_app. cbn [earlier]. now left. }
  assert (Child : forall k t q, In (k, t) ch -> In q (flatten t) -> exists s, s <> [] /\ position q = prefix ++ k :: s).
  { intros k t q I J. destruct (tree_under _ _ (Hch k t I) q J) as (s & N & E). exists s. rewrite E, <- app_assoc. auto. }
  set (chn := map (fun e => (fst e, item_newest (snd e))) ch) in *.
  assert (Lc : forall k o, bt_last chn = Some (k, o) -> exists t, In (k, t) ch /\ o = item_newest t /\
     forall k' t', In (k', t') ch -> k' < k \/ (k' = k /\ t' = t)).
  { intros k o E. destruct (sorted_last _ _ _ So1' E) as [I M]. apply in_map_iff in I as ([k0 t] & E0 & I). cbn [fst snd] in E0. inversion E0; subst.
    exists t. split; [assumption|]. split; [reflexivity|]. intros k' t' I'.
    destruct (M k' (item_newest t')) as [?|[-> _]]; [apply in_map_iff; exists (k', t'); auto|auto|right]. split; [reflexivity|].
    pose proof (in_bt_get _ _ _ So1 I). pose proof (in_bt_get _ _ _ So1 I'). congruence. }
  destruct (bt_last it) as [[ii p]|] eqn:Ei, (bt_last chn) as [[ci o]|] eqn:Ec.
  - destruct (sorted_last _ _ _ So2 Ei) as [Ii Mi]. destruct (Lc _ _ eq_refl) as (t & It & -> & Mc).
    destruct (Z.ltb_spec ci ii) as [L|L].
    + cbn [newest_in]. split; [apply in_flatten; eauto|]. intros q J. apply in_flatten in J as [[k J]|(k & t' & J & J')]; try assumption.
      * destruct (Mi k q J) as [?|[-> ->]]; [right|now left]. unfold before. rewrite (Hit _ _ J), (Hit _ _ Ii). now apply X.
      * right. destruct (Child _ _ _ J J') as (s & _ & E). unfold before. rewrite E, (Hit _ _ Ii). apply X. destruct (Mc _ _ J) as [?|[-> _]]; lia.
    + specialize (IH ci t It). destruct (item_newest t) as [r|]; [|exfalso; eapply Hne; [eassumption|exact IH]]. destruct IH as [Ir Mr].
      destruct (Child _ _ _ It Ir) as (s & N & E). split; [apply in_flatten; eauto 6|]. intros q J.
      apply in_flatten in J as [[k J]|(k & t' & J & J')]; try assumption.
      * right. unfold before. rewrite (Hit _ _ J), E. destruct (Mi _ _ J) as [?|[-> ->]]; [apply X; lia|].
        destruct (Z.eq_dec ii ci) as [->|]; [|apply X; lia]. apply earlier_app. cbn [earlier]. right. split; [reflexivity|]. now apply earlier_nil.
      * destruct (Mc _ _ J) as [?|[-> ->]]; [|auto]. right. destruct (Child _ _ _ J J') as (s' & _ & E'). unfold before. rewrite E, E'. apply X. lia.
  - apply bt_last_none in Ec. destruct (sorted_last _ _ _ So2 Ei) as [Ii Mi].
    cbn [newest_in]. split; [apply in_flatten; eauto|]. intros q J. apply in_flatten in J as [[k J]|(k & t' & J & J')]; try assumption.
    + destruct (Mi k q J) as [?|[-> ->]]; [right|now left]. unfold before. rewrite (Hit _ _ J), (Hit _ _ Ii). now apply X.
    + exfalso. unfold chn in Ec. destruct ch; [destruct J|discriminate].
  - apply bt_last_none in Ei. destruct (Lc _ _ eq_refl) as (t & It & -> & Mc).
    specialize (IH ci t It). destruct (item_newest t) as [r|]; [|exfalso; eapply Hne; [eassumption|exact IH]]. destruct IH as [Ir Mr].
    destruct (Child _ _ _ It Ir) as (s & N & E). split; [apply in_flatten; eauto 6|]. intros q J.
    apply in_flatten in J as [[k J]|(k & t' & J & J')]; try assumption.
    + subst it. destruct J.
    + destruct (Mc _ _ J) as [?|[-> ->]]; [|auto]. right. destruct (Child _ _ _ J J') as (s' & _ & E'). unfold before. rewrite E, E'. apply X. lia.
  - apply bt_last_none in Ei, Ec. subst it. unfold chn in Ec. destruct ch; [|discriminate]. reflexivity.
Qed.

(** *** inserting *)

Definition is_u32 (k : Z) : Prop := 0 <= k < 2 ^ 32.

Lemma small_insert {A} k (v : A) m : is_u32 k -> small m -> small (bt_insert k v m).
Proof.
  unfold is_u32. intros K S. apply Forall_forall. intros x I. apply in_map_iff in I as ([x' v'] & <- & I). apply in_bt_insert in I as [[-> _]|I].
  - cbn [fst]. unfold i64_max. lia.
  - unfold small in S. rewrite Forall_forall in S. apply S. apply (in_map fst _ _ I).
Qed.

Lemma empty_ok prefix : tree_ok prefix t_empty.
Proof. constructor; try (constructor; fail); intros ? ? []. Qed.

Lemma insert_get path idx p : forall t s, item_get s (insert_at path idx p t) =
  if list_eq_dec Z.eq_dec s (path ++ [idx]) then Some p else item_get s t.
Proof.
  induction path as [|k path IH]; intros [ch it] s; cbn [insert_at children items app].
  - destruct s as [|x s]; [destruct (list_eq_dec Z.eq_dec [] [idx]); [discriminate|reflexivity]|]. cbn [item_get items children]. destruct s as [|y s].
    + rewrite bt_get_insert. destruct (Z.eqb_spec x idx) as [->|N]; destruct (list_eq_dec Z.eq_dec _ _); congruence.
    + destruct (list_eq_dec Z.eq_dec _ _); [discriminate|reflexivity].
  - destruct s as [|x s]; [destruct (list_eq_dec Z.eq_dec _ _); [discriminate|reflexivity]|]. cbn [item_get items children]. destruct s as [|y s].
    + destruct (list_eq_dec Z.eq_dec _ _) as [E|]; [|reflexivity]. inversion E. destruct path; discriminate.
    + rewrite bt_get_insert. destruct (Z.eqb_spec x k) as [->|N].
      * rewrite IH. destruct (list_eq_dec Z.eq_dec (y :: s) _) as [E|E]; destruct (list_eq_dec Z.eq_dec (k :: y :: s) _) as [E'|E']; try congruence.
        destruct (bt_get k ch); [reflexivity|]. destruct s; reflexivity.
      * destruct (list_eq_dec Z.eq_dec _ _); [congruence|reflexivity].
Qed.

Lemma insert_ok path idx p : forall prefix t, tree_ok prefix t -> Forall is_u32 path -> is_u32 idx ->
  position p = prefix ++ path ++ [idx] -> tree_ok prefix (insert_at path idx p t).
Proof.
  induction path as [|k path IH]; intros prefix t T U I P; inversion T as [? ch it So1 So2 Sm1 Sm2 Hit Hch Hne]; subst; cbn [insert_at children items].
  - constructor; auto using bt_insert_sorted, small_insert. intros k q J. apply in_bt_insert in J as [[-> ->]|J]; [exact P|auto].
  - inversion U as [|? ? Uk U']; subst.
    set (c := match bt_get k ch with Some c => c | None => t_empty end).
    assert (Tc : tree_ok (prefix ++ [k]) c).
    { unfold c. destruct (bt_get k ch) eqn:E; [apply bt_get_in in E; auto|apply empty_ok]. }
    assert (T' : tree_ok (prefix ++ [k]) (insert_at path idx p c)).
    { apply IH; auto. rewrite P, <- app_assoc. reflexivity. }
    constructor; auto using bt_insert_sorted, small_insert.
    + intros k' t' J. apply in_bt_insert in J as [[-> ->]|J]; auto.
    + intros k' t' J. apply in_bt_insert in J as [[-> ->]|J]; [|eauto]. intros N.
      destruct (item_get_flatten _ _ T' (path ++ [idx]) p) as [X _]; [|rewrite N in X; destruct X].
      rewrite insert_get. now destruct (list_eq_dec Z.eq_dec _ _).
Qed.

(** ** The history of a folder *)

Definition history (fs : list props) : tree := fold_left (fun h p => add p h) fs t_empty.

Lemma order_split p : p_order p <> [] -> p_order p = order_base p ++ [order_last p].
Proof. intros N. unfold order_base, order_last. now apply app_removelast_last. Qed.

Lemma add_get p h s : p_order p <> [] -> item_get s (add p h) = if list_eq_dec Z.eq_dec s (position p) then Some p else item_get s h.
Proof.
  intros N. unfold add. rewrite insert_get. cbn [app]. rewrite <- order_split by assumption. reflexivity.
Qed.

Lemma add_ok p h : valid_props p -> tree_ok [] h -> tree_ok [] (add p h).
Proof.
  intros (C & _ & O & N & _) T. unfold add. pose proof (order_split p N) as E. rewrite E in O. apply Forall_app in O as [O1 O2].
  apply insert_ok; [exact T| | |].
  - constructor; [exact C|]. eapply Forall_impl; [|exact O1]. auto.
  - now inversion O2.
  - unfold position. cbn [app]. now rewrite <- E.
Qed.
Lemma add_items p h : items (add p h) = items h.
Proof. unfold add. reflexivity. Qed.

Lemma history_app fs p : history (fs ++ [p]) = add p (history fs).
Proof. unfold history. now rewrite fold_left_app. Qed.

Lemma history_ok fs : Forall valid_props fs -> tree_ok [] (history fs) /\ items (history fs) = [].
Proof.
  intros H. induction fs as [|p fs IH] using rev_ind; [split; [apply empty_ok|reflexivity]|].
  apply Forall_app in H as [H1 H2]. inversion H2; subst. destruct (IH H1) as [T I]. rewrite history_app.
  split; [now apply add_ok|now rewrite add_items].
Qed.

Lemma history_get fs s p : Forall valid_props fs ->
  item_get s (history fs) = Some p <-> last_at fs p /\ position p = s.
Proof.
  intros H. induction fs as [|q fs IH] using rev_ind.
  - split; [destruct s as [|x [|? ?]]; discriminate|]. intros [(l1 & l2 & E & _) _]. destruct l1; discriminate.
  - apply Forall_app in H as [H1 H2]. inversion H2 as [|? ? Hq _]; subst. rewrite history_app, add_get by apply Hq.
    destruct (list_eq_dec Z.eq_dec s (position q)) as [E|N].
    + split.
      * intros G. apply Some_inj in G. subst q. split; [|now symmetry]. exists fs, []. now split.
      * intros [(l1 & l2 & E' & F) P]. f_equal. destruct l2 as [|x l2] using rev_ind.
        -- apply app_inj_tail in E' as [_ E']. now symmetry.
        -- rewrite app_comm_cons, app_assoc in E'. apply app_inj_tail in E' as [_ <-]. apply Forall_app in F as [_ F]. inversion F; subst. congruence.
    + rewrite (IH H1). split; intros [(l1 & l2 & E' & F) P]; (split; [|assumption]).
      * exists l1, (l2 ++ [q]). split; [now rewrite E', <- app_assoc|]. apply Forall_app. split; [assumption|]. constructor; [congruence|constructor].
      * destruct l2 as [|x l2] using rev_ind.
        -- apply app_inj_tail in E' as [_ E']. congruence.
        -- clear IHl2. rewrite app_comm_cons, app_assoc in E'. apply app_inj_tail in E' as [E' ->]. apply Forall_app in F as [F _]. exists l1, l2. now split.
Qed.

Lemma merge_nil {B} (b : list (Z * B)) : merge (@nil (Z * props)) b = map (fun e => (fst e, Some (snd e), None)) b.
Proof. induction b as [|[y h] b IH]; [reflexivity|]. change (merge [] ((y, h) :: b)) with ((y, Some h, @None props) :: merge [] b). now rewrite IH. Qed.

Lemma list_files_flatten h : tree_ok [] h -> items h = [] -> list_files h = flatten h.
Proof.
  intros T I. inversion T as [? ch it So1 So2 Sm1 Sm2 _ _ _]; subst. cbn [items] in I. subst it. rewrite flatten_merge by assumption.
  rewrite merge_nil, map_map. unfold list_files. cbn [children fst snd]. rewrite !flat_map_concat_map, map_map. reflexivity.
Qed.
Lemma get_newest_item h : items h = [] -> get_newest h = item_newest h.
Proof.
  destruct h as [ch it]. cbn [items]. intros ->. unfold get_newest. cbn [item_newest children bt_last].
  assert (E : forall l : list (Z * tree), bt_last (map (fun e => (fst e, item_newest (snd e))) l) =
    match bt_last l with Some e => Some (fst e, item_newest (snd e)) | None => None end).
  { induction l as [|e l IH]; [reflexivity|]. cbn [map bt_last]. rewrite IH. destruct l; reflexivity. }
  rewrite E. destruct (bt_last ch) as [[k t]|]; reflexivity.
Qed.
Lemma get_props_item h c o : o <> [] -> get_props h c o = item_get (c :: o) h.
Proof. intros N. unfold get_props. cbn [item_get]. destruct o; [congruence|reflexivity]. Qed.

Lemma listing fs : Forall valid_props fs ->
  chronological (list_files (history fs)) /\
  (forall p, In p (list_files (history fs)) <-> last_at fs p) /\
  get_newest (history fs) = last_of (list_files (history fs)).
Proof.
  intros H. destruct (history_ok fs H) as [T I]. rewrite list_files_flatten, get_newest_item by assumption.
  split; [exact (flatten_sorted _ _ T)|]. split.
  - intros p. split.
    + intros J. destruct (tree_positions _ _ T p J) as (s & _ & E & G). now apply history_get in G as [G _].
    + intros J. apply (item_get_flatten _ _ T (position p)). apply history_get; auto.
  - apply newest_last; [exact (flatten_sorted _ _ T)|exact (item_newest_in _ _ T)].
Qed.

Lemma chronological_nodup l : chronological l -> NoDup l.
Proof.
  unfold chronological. induction l as [|x l IH]; intros C; constructor; inversion C as [|? ? C' F]; subst; [|auto].
  intros I. rewrite Forall_forall in F. apply (earlier_irrefl _ (F x I)).
Qed.

Lemma separate_last fs p : separate fs -> (last_at fs p <-> In p fs).
Proof.
  intros S. split.
  - intros (l1 & l2 & -> & _). apply in_or_app. right. now left.
  - intros I. apply in_split in I as (l1 & l2 & ->). exists l1, l2. split; [reflexivity|]. unfold separate in S. rewrite map_app in S.
    cbn [map] in S. apply NoDup_remove_2 in S. apply Forall_forall. intros q J E. apply S. apply in_or_app. right. rewrite <- E. now apply in_map.
Qed.

Lemma separate_perm fs : Forall valid_props fs -> separate fs -> Permutation (list_files (history fs)) fs.
Proof.
  intros H S. destruct (listing fs H) as (C & M & _). apply NoDup_Permutation.
  - now apply chronological_nodup.
  - apply NoDup_map_inv in S. exact S.
  - intros p. rewrite M. now apply separate_last.
Qed.

(** two orderings of the same files give the same list *)
Lemma chronological_unique l m : chronological l -> chronological m -> Permutation l m -> l = m.
Proof.
  revert m. induction l as [|x l IH]; intros m C1 C2 P; [now apply Permutation_nil in P|].
  destruct m as [|y m]; [symmetry in P; now apply Permutation_nil in P|].
  inversion C1 as [|? ? C1' F1]; subst. inversion C2 as [|? ? C2' F2]; subst.
  assert (x = y).
  { assert (I : In x (y :: m)) by (eapply Permutation_in; [exact P|now left]).
    assert (J : In y (x :: l)) by (eapply Permutation_in; [symmetry; exact P|now left]).
    destruct I as [->|I]; [reflexivity|]. destruct J as [->|J]; [reflexivity|]. exfalso.
    rewrite Forall_forall in F1, F2. apply (earlier_irrefl (position x)). eapply earlier_trans; [apply (F1 _ J)|apply (F2 _ I)]. }
  subst y. f_equal. apply IH; auto. now apply Permutation_cons_inv in P.
Qed.

(** the files a listing names *)
Definition named (names : list (list Z)) : list props :=
  flat_map (fun n => match analyze_file_name n with Ok (Some p) => [p] | _ => [] end) names.

Lemma add_names_fold names : Forall (fun n => analyze_file_name n <> Panic) names -> forall h,
  add_names names h = Ok (fold_left (fun h p => add p h) (named names) h).
Proof.
  intros F. induction F as [|n names N F IH]; intros h; [reflexivity|]. cbn [add_names]. unfold named. cbn [flat_map]. fold (named names).
  pose proof (analyze_total n). destruct (analyze_file_name n) as [[p|]| |]; try congruence; cbn [bind app fold_left]; apply IH.
Qed.

Lemma named_files fs : Forall valid_props fs -> Forall readable fs -> named (map filename fs) = fs /\
  Forall (fun n => analyze_file_name n <> Panic) (map filename fs).
Proof.
  intros V R. induction fs as [|p fs IH]; [split; [reflexivity|constructor]|]. inversion V; subst. inversion R; subst. destruct IH as [E F]; auto.
  destruct (analyze_name p) as [A _]; [assumption|]. unfold named in *. cbn [map flat_map]. rewrite A, E by assumption. split; [reflexivity|].
  constructor; [rewrite A by assumption; discriminate|assumption].
Qed.

Lemma history_of_folder fs junk names : Forall valid_props fs -> Forall readable fs ->
  Forall (fun n => analyze_file_name n = Ok None) junk -> Permutation names (map filename fs ++ junk) ->
  exists fs', Permutation fs' fs /\ create_file_history names = Ok (history fs').
Proof.
  intros V R J P. exists (named names). destruct (named_files fs V R) as [E F].
  assert (Ej : named junk = []).
  { clear P. unfold named. induction J as [|n l H J' IH]; [reflexivity|]. cbn [flat_map]. now rewrite H, IH. }
  split.
  - unfold named. rewrite P, flat_map_app. fold (named (map filename fs)) (named junk). rewrite E, Ej, app_nil_r. reflexivity.
  - unfold create_file_history. apply add_names_fold. symmetry in P. eapply Permutation_Forall; [exact P|]. apply Forall_app. split; [assumption|].
    eapply Forall_impl; [|exact J]. cbn. intros a -> ?. discriminate.
Qed.

Lemma separate_permute fs fs' : Permutation fs' fs -> separate fs -> separate fs'.
Proof. intros P S. unfold separate in *. eapply Permutation_NoDup; [|exact S]. symmetry. now apply Permutation_map. Qed.

(** the listing of a folder does not depend on the order in which it is read *)
Lemma folder_listing fs junk names : Forall valid_props fs -> Forall readable fs ->
  Forall (fun n => analyze_file_name n = Ok None) junk -> separate fs -> Permutation names (map filename fs ++ junk) ->
  exists h, create_file_history names = Ok h /\ chronological (list_files h) /\
    Permutation (list_files h) fs /\ get_newest h = last_of (list_files h).
Proof.
  intros V R J S P. destruct (history_of_folder fs junk names V R J P) as (fs' & P' & ->). exists (history fs'). split; [reflexivity|].
  assert (V' : Forall valid_props fs') by (eapply Permutation_Forall; [symmetry; eassumption|assumption]).
  destruct (listing fs' V') as (C & _ & N). split; [assumption|]. split; [|assumption].
  rewrite separate_perm; eauto using separate_permute.
Qed.
