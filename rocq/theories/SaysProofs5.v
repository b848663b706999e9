(** A source says only one thing (C61). *)
From Coq Require Import String.
From Coq Require Import Sorting.Permutation.
From Verif Require Import Base FloatModel FloatProofs StringCompactionModel StringCompactionProofs DocModel DiffSpec DiffProofs DiffEditProofs
  ArchiveModel JsonModel JsonSpec JsonNameProofs JsonProofs LoadSpec LoadProofs SaysSpec SaysProofs SaysProofs2 SaysProofs3 SaysProofs4 SameSpec.

Lemma same_names_refl a : same_names a a. Proof. intros n; reflexivity. Qed.

Lemma nothing_fun {A} v (q q' : qv A) : nothing A v q -> nothing A v q' -> q = q'.
Proof. intros H H'. inversion H; subst; inversion H'; subst; reflexivity. Qed.
Lemma writes_float_fun v b b' : writes_float v b -> writes_float v b' -> b = b'.
Proof. intros H H'. inversion H; subst; inversion H'; subst; reflexivity. Qed.
Lemma map_jint_inj l l' : map JInt l = map JInt l' -> l = l'.
Proof. revert l'. induction l as [|i l IH]; intros [|j l'] E; try discriminate E; [reflexivity|]. cbn in E. injection E as -> E. f_equal. auto. Qed.
Lemma nothing_not_int A v (q : qv A) l : nothing A v q -> [v] = map JInt l -> False.
Proof. intros H E. destruct l as [|i [|]]; try discriminate E. cbn in E. injection E as ->. inversion H. Qed.
Lemma writes_floats_fun l fs fs' :
  Forall2 (fun v f => writes_float v f \/ exists w, v = tagged_with "Float" [w] /\ writes_float w f) l fs ->
  Forall2 (fun v f => writes_float v f \/ exists w, v = tagged_with "Float" [w] /\ writes_float w f) l fs' -> fs = fs'.
Proof.
  intros F. revert fs'. induction F as [|v f l fs H F IH]; intros fs' F'; inversion F' as [|v' f' l' fs'' H' F'']; subst; [reflexivity|]. f_equal; [|auto].
  destruct H as [H|(w & -> & H)], H' as [H'|(w' & E & H')]; [eapply writes_float_fun; eassumption|subst v; inversion H|inversion H'|injection E as <-; eapply writes_float_fun; eassumption].
Qed.

Lemma nothing_not_floats A v (q : qv A) l fs : nothing A v q ->
  Forall2 (fun v f => writes_float v f \/ exists w, v = tagged_with "Float" [w] /\ writes_float w f) l fs -> [v] = l -> False.
Proof.
  intros H F <-. inversion F as [|? f ? ? [W|(w & -> & W)]]; subst; [inversion H; subst; inversion W|inversion H].
Qed.

Lemma writes_param_fun v p p' : writes_param v p -> writes_param v p' -> same_param p p'.
Proof.
  unfold tagged_with. intros H H'.
  inversion H; subst; inversion H'; subst; cbn [same_param no_address];
    try reflexivity; try (exfalso; congruence);
    try (f_equal; eapply writes_float_fun; eassumption);
    try (eapply nothing_fun; eassumption);
    try (f_equal; eapply nothing_fun; eassumption);
    try (exfalso; match goal with F : writes_float ?v _, N : nothing _ ?v _ |- _ => inversion N; subst; inversion F end);
    try (exfalso; match goal with l : list Z |- _ => destruct l; discriminate end);
    try (f_equal; apply map_jint_inj; congruence);
    try (f_equal; eapply writes_floats_fun; eassumption);
    exfalso; first [eapply nothing_not_int; [eassumption|first [eassumption|symmetry; eassumption]]|eapply nothing_not_floats; [eassumption|eassumption|reflexivity]].
Qed.

Lemma writes_names_fun l ns ns' : writes_names l ns -> writes_names l ns' -> same_names ns ns'.
Proof.
  assert (G : forall ns ns', writes_names l ns -> writes_names l ns' -> forall n, In n ns -> In n ns').
  { intros a b [_ B] [A _] n I. destruct (A _ (B _ I)) as (n' & E & _ & I'). injection E as ->. exact I'. }
  intros H H' n. split; eapply G; eassumption.
Qed.
Lemma says_old_fun m ns ns' : says_old m ns -> says_old m ns' -> same_names ns ns'.
Proof.
  intros [A B] [A' B']. destruct (word_dec m SOld) as [X|[v X]]; [rewrite (B X), (B' X); apply same_names_refl|].
  destruct (A v X) as (l & -> & W). destruct (A' _ X) as (l' & E & W'). injection E as <-. eapply writes_names_fun; eassumption.
Qed.
Lemma writes_ref_fun v q q' : writes_ref v q -> writes_ref v q' -> q = q'.
Proof.
  intros H H'. inversion H as [s P|v0 q0 N]; subst; inversion H' as [s' P'|v0' q0' N']; subst; [reflexivity|inversion N'|inversion N|eapply nothing_fun; eassumption].
Qed.
Lemma writes_refs_fun m r r' o o' : tidy_node (JMap m) -> writes_refs m r o -> writes_refs m r' o' -> same_refs r r' /\ same_names o o'.
Proof.
  intros (T1 & T2 & _) (_ & _ & O & M & M') (_ & _ & O' & N & N'). split; [|eapply says_old_fun; eassumption]. intros n.
  destruct (hget n r) as [x|] eqn:G.
  - destruct (M' _ _ G) as (vt & v & V). destruct (M _ _ _ V) as (i & q & G1 & W). destruct (N _ _ _ V) as (i' & q' & G2 & W'). rewrite G in G1. injection G1 as ->. rewrite G2. cbn. rewrite (writes_ref_fun _ _ _ W W'). reflexivity.
  - destruct (hget n r') as [x|] eqn:G'; [|reflexivity]. destruct (N' _ _ G') as (vt & v & V). destruct (M _ _ _ V) as (i & q & G1 & _). congruence.
Qed.
Lemma says_refs_fun m r r' e e' o o' : tidy (JMap m) -> says_refs m r e o -> says_refs m r' e' o' -> same_refs r r' /\ e = e' /\ same_names o o'.
Proof.
  intros T (A & B & C) (A' & B' & C').
  assert (E : e = e') by (destruct e, e'; try reflexivity; [symmetry; apply C', C; reflexivity|apply C, C'; reflexivity]).
  assert (G : forall v, word m SRef v \/ word m SEnum v -> same_refs r r' /\ same_names o o').
  { intros v X. destruct (A v X) as (x & -> & W). destruct (A' _ X) as (x' & Ex & W'). injection Ex as <-. eapply writes_refs_fun; [|exact W|exact W']. apply everywhere_node.
    destruct X as [X|X]; eapply (everywhere_map _ _ _ _ T), X. }
  destruct (word_dec m SRef) as [X|[v X]]; [|destruct (G v); auto]. destruct (word_dec m SEnum) as [Y|[v Y]]; [|destruct (G v); auto].
  destruct (B X Y) as [-> ->]. destruct (B' X Y) as [-> ->]. split; [intros n; reflexivity|]. split; [exact E|apply same_names_refl].
Qed.

Lemma undefiable_fun vt u u' : writes_undefiable vt u -> writes_undefiable vt u' -> u = u'.
Proof. intros H H'. inversion H; subst; inversion H'; subst; reflexivity. Qed.

(** attributes are arrays, and objects follow them *)
Definition arrays (l : list jval) : Prop := forall v, In v l -> exists a, v = JArray a.
Lemma attrs_fun a a' objs objs' : arrays a -> arrays a' -> a ++ map JMap objs = a' ++ map JMap objs' -> a = a' /\ objs = objs'.
Proof.
  revert a'. induction a as [|v a IH]; intros [|v' a'] H H' E; cbn in E.
  - split; [reflexivity|]. clear -E. revert objs' E. induction objs as [|m objs IH]; intros [|m' objs'] E; try discriminate E; [reflexivity|]. cbn in E. injection E as -> E. f_equal. auto.
  - destruct objs as [|m objs]; [discriminate E|]. cbn in E. injection E as <- E. destruct (H' (JMap m)) as (x & X); [left; reflexivity|discriminate X].
  - destruct objs' as [|m objs']; [discriminate E|]. cbn in E. injection E as -> E. destruct (H (JMap m)) as (x & X); [left; reflexivity|discriminate X].
  - injection E as -> E. destruct (IH a') as [-> ->]; [intros y I; apply H; right; exact I|intros y I; apply H'; right; exact I|exact E|]. auto.
Qed.
(** at most one further attribute *)
Definition other_attr (t : string) (old : list jval) : Prop := old = [] \/ exists l, old = [tagged_with t l].
Lemma other_attrs t attrs x old : Permutation attrs (JArray x :: old) -> other_attr t old -> arrays attrs.
Proof.
  intros P O v I. eapply Permutation_in in I; [|exact P]. destruct I as [<-|I]; [eauto|]. destruct O as [->|[l ->]]; [destruct I|]. destruct I as [<-|[]]. unfold tagged_with. eauto.
Qed.
Lemma default_not_tagged t x d l : says_default x d -> txt t <> txt "Default" -> JArray x <> tagged_with t l.
Proof. intros D N E. injection E as ->. inversion D; subst; congruence. Qed.
Lemma default_fun t attrs x x' old old' d d' : Permutation attrs (JArray x :: old) -> Permutation attrs (JArray x' :: old') ->
  other_attr t old -> other_attr t old' -> txt t <> txt "Default" -> says_default x d -> says_default x' d' -> x = x' /\ old = old'.
Proof.
  intros P P' O O' N D D'. assert (Ex : x = x').
  { assert (I : In (JArray x) (JArray x' :: old')) by (eapply Permutation_in; [exact P'|]; eapply Permutation_in; [apply Permutation_sym, P|left; reflexivity]).
    destruct I as [I|I]; [congruence|]. destruct O' as [->|[l ->]]; [destruct I|]. destruct I as [I|[]]. exfalso. symmetry in I. exact (default_not_tagged t x d l D N I). }
  split; [exact Ex|]. subst x'. assert (Q : Permutation old old') by (eapply Permutation_cons_inv; etransitivity; [apply Permutation_sym, P|exact P']).
  destruct O as [->|[l ->]]; [symmetry; apply Permutation_nil, Q|]. apply Permutation_length_1_inv in Q. symmetry. exact Q.
Qed.
Lemma old_attr old ns : writes_old old ns -> other_attr "Old" old.
Proof. intros H. inversion H; subst; [right; eauto|left; reflexivity]. Qed.
Lemma old_fun old ns ns' : writes_old old ns -> writes_old old ns' -> same_names ns ns'.
Proof. intros H H'. inversion H as [l a W|]; subst; inversion H' as [l' a' W'|]; subst; [eapply writes_names_fun; eassumption|apply same_names_refl]. Qed.
Lemma next_attr objs next n : writes_next objs next n -> other_attr "NextID" next.
Proof. intros H. inversion H; subst; [right; eauto|left; reflexivity]. Qed.
Lemma next_fun objs next n n' : writes_next objs next n -> writes_next objs next n' -> n = n'.
Proof. intros H H'. inversion H; subst; inversion H'; subst; reflexivity. Qed.

Lemma tagged_eq {t a b v} : tagged_with t a = v -> tagged_with t b = v -> a = b.
Proof. unfold tagged_with. congruence. Qed.

Section Depth.
Variable n : nat.
Hypothesis IH : forall v vt r r', (jdepth v < n)%nat -> tidy v -> says vt v r -> says vt v r' -> same_value r r'.

Lemma member_same m k vt v r r' : (dm m < n)%nat -> tidy (JMap m) -> member m k vt v -> says vt v r -> says vt v r' -> same_value r r'.
Proof.
  intros D T V. apply member_iff in V as (key & I & _). apply IH; [apply dm_in in I; lia|]. eapply (everywhere_map _ _ _ _ T), I.
Qed.

Lemma def_fun m d d' : (dm m < n)%nat -> tidy (JMap m) -> says_def m d -> says_def m d' -> same_def d d'.
Proof.
  intros D T S S'. inversion S as [m0 e K Ni O R M M2]; subst. inversion S' as [m0 e' K' Ni' O' R' M' M2']; subst. destruct (says_refs_fun _ _ _ _ _ _ _ T R R') as (A & B & C).
  apply same_defs; [| |exact A|exact B|eapply says_old_fun; eassumption|exact C].
  - intros k i x G. destruct (M2 _ _ G) as (vt & v & V). destruct (M _ _ _ V) as (i1 & x1 & r & G1 & I1 & S1). rewrite G in G1. injection G1 as <- <-.
    destruct (M' _ _ _ V) as (i2 & x2 & r' & G2 & I2 & S2). exists i2, x2, r, r'. split; [exact G2|]. split; [exact I1|]. split; [exact I2|]. eapply member_same; eassumption.
  - intros k x G. destruct (M2' _ _ G) as (vt & v & V). destruct (M _ _ _ V) as (i1 & x1 & r & G1 & _). eauto.
Qed.
Lemma item_fun m c c' : (dm m < n)%nat -> tidy (JMap m) -> says_item m c -> says_item m c' -> same_item c c'.
Proof.
  intros D T S S'. inversion S as [m0 e rf en K O R F M M2]; subst. inversion S' as [m0 e' rf' en' K' O' R' F' M' M2']; subst. destruct (says_refs_fun _ _ _ _ _ _ _ T R R') as (A & _).
  apply same_items.
  - intros k x G. destruct (M2 _ _ G) as (vt & v & V). destruct (M _ _ _ V) as (x1 & r & G1 & I1 & S1). rewrite G in G1. injection G1 as <-.
    destruct (M' _ _ _ V) as (x2 & r' & G2 & I2 & S2). exists x2, r, r'. split; [exact G2|]. split; [exact I1|]. split; [exact I2|]. eapply member_same; eassumption.
  - intros k x G. destruct (M2' _ _ G) as (vt & v & V). destruct (M _ _ _ V) as (x1 & r & G1 & _). eauto.
  - intros k. rewrite F, F'. specialize (A k). destruct (hget k rf) as [[a b]|], (hget k rf') as [[a' b']|]; cbn in *; congruence.
Qed.
Lemma default_same x d d' : (dl x < n)%nat -> tidy (JArray x) -> says_default x d -> says_default x d' -> same_def d d'.
Proof.
  intros D T S S'. inversion S as [m e H|m e H]; subst; inversion S' as [m' e' H'|m' e' H']; subst; (eapply def_fun; [| |exact H|exact H']).
  - assert (I : In (JMap m) [JString (txt "Default"); JMap m]) by (right; left; reflexivity). apply dl_in in I. cbn [jdepth] in I. fold (dm m) in I. lia.
  - eapply (everywhere_array _ _ _ T). right; left; reflexivity.
  - assert (I : In (JMap m) [JMap m]) by (left; reflexivity). apply dl_in in I. cbn [jdepth] in I. fold (dm m) in I. lia.
  - eapply (everywhere_array _ _ _ T). left; reflexivity.
Qed.

(** the objects of an array *)
Lemma rows_fun objs rows rows' : (forall m, In m objs -> (dm m < n)%nat /\ tidy (JMap m)) ->
  Forall2 (fun m e => says_id m (Some (IdStr (fst e))) /\ says_item m (snd e)) objs rows ->
  Forall2 (fun m e => says_id m (Some (IdStr (fst e))) /\ says_item m (snd e)) objs rows' ->
  Forall2 (fun a b : list Z * citem => fst a = fst b /\ same_item (snd a) (snd b)) rows rows'.
Proof.
  intros H F. revert rows'. induction F as [|m e objs rows [I S] F IH']; intros rows' F'; inversion F' as [|m' e' objs' rows'' [I' S'] F'']; subst; [constructor|].
  destruct (H m (or_introl eq_refl)) as [D T]. constructor; [|apply IH'; [intros; apply H; right; assumption|assumption]]. split; [|eapply item_fun; eassumption].
  pose proof (says_id_fun _ _ _ (proj1 (everywhere_node _ _ T)) I I') as E. congruence.
Qed.
Lemma citems_fun objs l l' : (forall m, In m objs -> (dm m < n)%nat /\ tidy (JMap m)) ->
  Forall2 (fun m c => says_id m None /\ says_item m c) objs l -> Forall2 (fun m c => says_id m None /\ says_item m c) objs l' -> Forall2 same_item l l'.
Proof.
  intros H F. revert l'. induction F as [|m c objs l [I S] F IH']; intros l' F'; inversion F' as [|m' c' objs' l'' [I' S'] F'']; subst; [constructor|].
  destruct (H m (or_introl eq_refl)) as [D T]. constructor; [eapply item_fun; eassumption|apply IH'; [intros; apply H; right; assumption|assumption]].
Qed.
Lemma items_fun objs : forall i l l', (forall m, In m objs -> (dm m < n)%nat /\ tidy (JMap m)) -> says_items i objs l -> says_items i objs l' ->
  Forall2 (fun a b : Z * citem => fst a = fst b /\ same_item (snd a) (snd b)) l l'.
Proof.
  induction objs as [|m objs IHo]; intros i l l' H F F'; inversion F as [|i1 m1 o1 id1 c1 l1 I1 S1 F1]; subst; inversion F' as [|i2 m2 o2 id2 c2 l2 I2 S2 F2]; subst; [constructor|].
  destruct (H m (or_introl eq_refl)) as [D T]. constructor; [|eapply IHo; [intros; apply H; right; assumption|eassumption|eassumption]]. cbn [fst snd].
  split; [|eapply item_fun; eassumption]. pose proof (proj1 (everywhere_node _ _ T)) as N.
  destruct I1 as [I1|[I1 ->]], I2 as [I2|[I2 ->]]; pose proof (says_id_fun _ _ _ N I1 I2) as E; congruence.
Qed.
End Depth.

Theorem says_fun n : forall v vt r r', (jdepth v < n)%nat -> tidy v -> says vt v r -> says vt v r' -> same_value r r'.
Proof.
  induction n as [|n IH]; intros v vt r r' D T S S'; [lia|].
  pose proof (eq_trans (says_kind _ _ _ S) (eq_sym (says_kind _ _ _ S'))) as K.
  assert (Ob : forall t a objs, v = tagged_with t (a ++ map JMap objs) -> forall m, In m objs -> (dm m < n)%nat /\ tidy (JMap m)).
  { intros t a objs -> m I. assert (J : In (JMap m) (JString (txt t) :: a ++ map JMap objs)) by (right; apply in_or_app; right; apply in_map, I).
    split; [|eapply (everywhere_array _ _ _ T), J]. apply dl_in in J. cbn [jdepth tagged_with] in D, J. fold (dm m) in J. fold (dl (JString (txt t) :: a ++ map JMap objs)) in D. lia. }
  assert (Ar : forall t l x, v = tagged_with t l -> In (JArray x) l -> (dl x < n)%nat /\ tidy (JArray x)).
  { intros t l x -> I. assert (J : In (JArray x) (JString (txt t) :: l)) by (right; exact I).
    split; [|eapply (everywhere_array _ _ _ T), J]. apply dl_in in J. cbn [jdepth tagged_with] in D, J. fold (dl x) in J. fold (dl (JString (txt t) :: l)) in D. lia. }
  inversion S as [vt0 v0 p W|attrs x old d ns objs rows P De O F|x d objs items De F|vt0 u attrs x next d k objs items U P De N F|objs items F|next k objs items N F|vt0|x d De|vt0 u x d U De]; subst vt r;
    try subst vt0; try subst v0;
  inversion S' as [vt0' v0' p' W'|attrs' x' old' d' ns' objs' rows' P' De' O' F'|x' d' objs' items' De' F'|vt0' u' attrs' x' next' d' k' objs' items' U' P' De' N' F'|objs' items' F'|next' k' objs' items' N' F'|vt0'|x' d' De'|vt0' u' x' d' U' De']; subst r'; try discriminate K.
  - apply same_params. eapply writes_param_fun; eassumption.
  - match goal with E : _ = v, E' : _ = v |- _ => pose proof (tagged_eq E E') as X; symmetry in E; rename E into Ev end.
    apply attrs_fun in X as [-> ->]; [|eapply other_attrs; [exact P|eapply old_attr, O]|eapply other_attrs; [exact P'|eapply old_attr, O']].
    destruct (default_fun _ _ _ _ _ _ _ _ P P' (old_attr _ _ O) (old_attr _ _ O') ltac:(discriminate) De De') as [<- <-].
    destruct (Ar _ _ x Ev) as [Dx Tx]; [apply in_or_app; left; eapply Permutation_in; [apply Permutation_sym, P|left; reflexivity]|].
    apply same_table; [eapply default_same; eassumption|eapply rows_fun; [exact IH|exact (Ob _ _ _ Ev)|exact F|exact F']|eapply old_fun; eassumption].
  - match goal with E : _ = v, E' : _ = v |- _ => pose proof (tagged_eq E E') as X; symmetry in E; rename E into Ev end.
    apply (attrs_fun [JArray x] [JArray x']) in X as [X ->]; [|intros y [<-|[]]; eauto|intros y [<-|[]]; eauto]. injection X as ->.
    destruct (Ar _ _ x' Ev) as [Dx Tx]; [left; reflexivity|].
    apply same_clist; [eapply default_same; eassumption|eapply citems_fun; [exact IH|exact (Ob _ [JArray x'] _ Ev)|exact F|exact F']].
  - match goal with E : _ = v, E' : _ = v |- _ => pose proof (tagged_eq E E') as X; symmetry in E; rename E into Ev end.
    apply attrs_fun in X as [-> ->]; [|eapply other_attrs; [exact P|eapply next_attr, N]|eapply other_attrs; [exact P'|eapply next_attr, N']].
    destruct (default_fun _ _ _ _ _ _ _ _ P P' (next_attr _ _ _ N) (next_attr _ _ _ N') ltac:(discriminate) De De') as [<- <-].
    destruct (Ar _ _ x Ev) as [Dx Tx]; [apply in_or_app; left; eapply Permutation_in; [apply Permutation_sym, P|left; reflexivity]|].
    rewrite (undefiable_fun _ _ _ U U'), (next_fun _ _ _ _ N N').
    apply same_mlist; [eapply default_same; eassumption|eapply items_fun; [exact IH|exact (Ob _ _ _ Ev)|exact F|exact F']].
  - match goal with E : _ = v, E' : _ = v |- _ => pose proof (tagged_eq E E') as X; symmetry in E; rename E into Ev end.
    apply (attrs_fun [] []) in X as [_ ->]; [|intros y []|intros y []].
    apply same_cil. eapply citems_fun; [exact IH|exact (Ob _ [] _ Ev)|exact F|exact F'].
  - match goal with E : _ = v, E' : _ = v |- _ => pose proof (tagged_eq E E') as X; symmetry in E; rename E into Ev end.
    apply attrs_fun in X as [-> ->].
    + rewrite (next_fun _ _ _ _ N N'). apply same_mil. eapply items_fun; [exact IH|exact (Ob _ _ _ Ev)|exact F|exact F'].
    + destruct (next_attr _ _ _ N) as [->|[l ->]]; [intros y []|intros y [<-|[]]; unfold tagged_with; eauto].
    + destruct (next_attr _ _ _ N') as [->|[l ->]]; [intros y []|intros y [<-|[]]; unfold tagged_with; eauto].
  - exfalso. match goal with E : _ = v, E' : _ = v |- _ => rewrite <- E' in E; discriminate E end.
  - exfalso. match goal with E : _ = v, E' : _ = v |- _ => rewrite <- E' in E; discriminate E end.
  - apply same_undefined.
  - match goal with E : _ = v, E' : _ = v |- _ => pose proof (tagged_eq E E') as X; symmetry in E; rename E into Ev end. injection X as ->.
    destruct (Ar _ _ x' Ev) as [Dx Tx]; [left; reflexivity|]. apply same_cil_def. eapply default_same; eassumption.
  - match goal with E : _ = v, E' : _ = v |- _ => pose proof (tagged_eq E E') as X; symmetry in E; rename E into Ev end. injection X as ->.
    destruct (Ar _ _ x' Ev) as [Dx Tx]; [left; reflexivity|]. rewrite (undefiable_fun _ _ _ U U'). apply same_mil_def. eapply default_same; eassumption.
Qed.

(** the values of members of the root *)
Lemma says_member_fun vt v w s w' s' : tidy v -> says_member vt v w s -> says_member vt v w' s' -> same_member w s w' s'.
Proof. intros T (r & S & I) (r' & S' & I'). exists r, r'. split; [exact I|]. split; [exact I'|]. eapply says_fun; [apply Nat.lt_succ_diag_r|exact T|exact S|exact S']. Qed.

Theorem says_root_fun m r r' : tidy (JMap m) -> says_root m r -> says_root m r' -> same_root r r'.
Proof.
  intros T (_ & _ & O & _ & M & M2 & _) (_ & _ & O' & _ & M' & M2' & _). split; [|split; [|eapply says_old_fun; eassumption]].
  - intros n i w G. destruct (M2 _ _ G) as (vt & v & V). destruct (M _ _ _ V) as (i1 & w1 & s1 & G1 & H1 & S1). rewrite G in G1. injection G1 as <- <-.
    destruct (M' _ _ _ V) as (i2 & w2 & s2 & G2 & H2 & S2). exists i2, w2. split; [exact G2|]. rewrite H1, H2. eapply says_member_fun; [|exact S1|exact S2].
    apply member_iff in V as (key & I & _). eapply (everywhere_map _ _ _ _ T), I.
  - intros n x G. destruct (M2' _ _ G) as (vt & v & V). destruct (M _ _ _ V) as (i1 & w1 & s1 & G1 & _). eauto.
Qed.

Theorem says_files_fun parse files r r' : NoDup (map fst files) -> all_files tidy parse files -> says_files parse files r -> says_files parse files r' -> same_root r r'.
Proof.
  intros Np T (path & content & m & If & Es & Ep & Uq & _ & _ & _ & O & _ & M & M2 & _) (path' & content' & m' & If' & Es' & Ep' & Uq' & _ & _ & _ & O' & _ & M' & M2' & _).
  assert (Ec : content' = content).
  { pose proof (Uq _ _ If' Es') as ->. clear -Np If If'. assert (G : forall l : list (list Z * list Z), NoDup (map fst l) -> In (path, content) l -> In (path, content') l -> content' = content).
    { induction l as [|e l IH]; [intros N []|intros N [->|I] [E|I']]; [congruence| | |].
      - inversion N as [|? ? X _]; subst. exfalso. apply X. apply (in_map fst) in I'. exact I'.
      - subst e. inversion N as [|? ? X _]; subst. exfalso. apply X. apply (in_map fst) in I. exact I.
      - inversion N; subst. auto. }
    eapply G; eassumption. }
  subst content'. rewrite Ep in Ep'. injection Ep' as <-. pose proof (T _ _ _ If Ep) as Tm.
  assert (Tv : forall n vt v, member m n vt v \/ file_member parse files n vt v -> tidy v).
  { intros n vt v [V|(p & c & t & I & _ & _ & _ & _ & E)]; [|eapply T; eassumption]. apply member_iff in V as (key & I & _). eapply (everywhere_map _ _ _ _ Tm), I. }
  split; [|split; [|eapply says_old_fun; eassumption]].
  - intros n i w G. destruct (M2 _ _ G) as (vt & v & V). destruct (M _ _ _ V) as (i1 & w1 & s1 & G1 & H1 & S1). rewrite G in G1. injection G1 as <- <-.
    destruct (M' _ _ _ V) as (i2 & w2 & s2 & G2 & H2 & S2). exists i2, w2. split; [exact G2|]. rewrite H1, H2. eapply says_member_fun; [eapply Tv, V|exact S1|exact S2].
  - intros n x G. destruct (M2' _ _ G) as (vt & v & V). destruct (M _ _ _ V) as (i1 & w1 & s1 & G1 & _). eauto.
Qed.
