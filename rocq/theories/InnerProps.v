(** C43, continued: what moving a document to a new version makes of the items of inner lists. *)
From Coq Require Import String.
From Verif Require Import Base DocModel JsonModel JsonSpec JsonProofs JsonProps ValidModel ValidSpec ValidProofs ValidProps LoadSpec LoadProofs AdjustModel AdjustSpec AdjustProofs AdjustProps InnerSpec.

Lemma rebuild_exact {l l' : list (Z * citem)} next : map fst l' = map fst l -> rebuild l' next = (l', match l with [] => 0 | _ => next end).
Proof. destruct l, l'; intros H; try discriminate H; reflexivity. Qed.

Lemma item_recast iter d c : iterates iter -> NoDup (map fst (ld_members d)) -> NoDup (map fst (ld_refs d)) -> distinct_ids c -> forall c', adjust_item iter d c = Ok c' -> recast d c c'.
Proof.
  intros It N Nr. induction 1 as [c _ _ _ _ IHm]. intros c' H. destruct (item_adjusted iter It d c c' N H) as (Hv & Hr & _). constructor.
  - intros key. specialize (Hv key). destruct (hget key (ld_members d)) as [[i dv]|]; cbn [option_map snd]; [|rewrite Hv; constructor].
    destruct (hget key (ci_values c)) as [v|] eqn:G.
    + destruct Hv as (v' & Ev & ->). apply value_adjusted in Ev. destruct v as [p|l|[[l next]|]]; [subst; constructor|destruct Ev| |subst; constructor].
      destruct Ev as (l' & -> & A). rewrite (rebuild_exact (l := l)) by (apply (adjusted_ids iter _ _ _ A)). apply recast_list; [apply (adjusted_ids iter _ _ _ A)|].
      intros id x x' I. apply (IHm key l next id x (DiffProofs.hget_in _ _ _ G)); [apply (in_combine_l _ _ _ _ I)|apply (adjusted_combine iter _ _ _ A _ _ _ _ I)].
    + destruct dv as [p vt|d'|d' u]; [|destruct Hv|]; rewrite Hv.
      * destruct (undefiable vt) eqn:U; [apply recast_undefined; [apply undefiable_iff, U|apply to_undefined_of]|apply recast_default, undefiable_not, U].
      * destruct u; constructor.
  - intros key. rewrite Hr. apply refs_carried; [exact It|exact Nr].
Qed.

(** Exactly what becomes of the items of a list, at every depth. *)
Theorem C43_inner : forall iter new old validation r, iterates iter -> different_names new -> changeable_lists (ro_sabun old) ->
  adjust_versions iter new old validation = Ok r ->
  forall key i d u l next, In (key, (i, WMList d u)) (ro_default new) -> u = false \/ is_some (hget key (ro_default old)) = true -> hget key (ro_sabun old) = Some (RMut (Some (l, next))) ->
  exists l', hget key (ro_sabun r) = Some (RMut (Some (l', match l with [] => 0 | _ => next end))) /\ map fst l' = map fst l /\
    forall id c c', In ((id, c), (id, c')) (combine l l') -> recast (undef d) c c'.
Proof.
  intros iter new old v r It D C H key i d u l next I K E. destruct (adjust_root iter It _ _ _ _ D H) as (_ & _ & _ & _ & M & _). destruct (M _ _ _ I) as (o & G & ->). unfold root_member in G. cbn [snd] in G.
  assert (X : u && negb (is_some (hget key (ro_default old))) = false) by (destruct K as [-> | ->]; [reflexivity|apply andb_false_r]). rewrite X, E in G.
  apply bind_ok in G as (l2 & G & Eo). apply Ok_inj in Eo. subst o. unfold adjust_mut_list in G. apply bind_ok in G as (items & Em & G). apply Ok_inj in G. cbn [fst snd] in *. apply items_adjusted in Em.
  pose proof (adjusted_ids iter _ _ _ Em) as Ids. rewrite (rebuild_exact (l := l) next Ids) in G. subst l2. exists items. split; [reflexivity|]. split; [exact Ids|].
  intros id c c' Ic. destruct D as [_ D]. destruct (D _ _ _ _ I) as [Nm Nr]. destruct (C _ _ _ E) as [_ Cc]. apply (item_recast iter (undef d) c It Nm Nr); [apply (Cc id c), (in_combine_l _ _ _ _ Ic)|]. apply (adjusted_combine iter _ _ _ Em _ _ _ _ Ic).
Qed.
Print Assumptions C43_inner.

Lemma counterpart_recast d c c' x x' : recast d c c' -> counterpart c c' x x' -> recast d x x'.
Proof.
  intros R K. revert R. induction K as [c c' key l next l' next' id x x' G G' I|c c' key l next l' next' id x x' y y' G G' I K IH]; intros R; inversion R as [c0 c0' Hv _]; subst c0 c0'; specialize (Hv key); rewrite G, G' in Hv.
  - inversion Hv; subst. eauto.
  - apply IH. inversion Hv; subst. eauto.
Qed.

(** A value or a reference of an item in an inner list is kept exactly if the list of the root,
    not the inner list, has a member of that name. *)
Theorem C43_inner_kept : forall d c c' x x', recast d c c' -> counterpart c c' x x' ->
  (forall key q, hget key (ci_values x) = Some (VParam q) -> (hget key (ci_values x') = Some (VParam q) <-> hget key (ld_members d) <> None)) /\
  (forall key q, hget key (ci_refs x) = Some q -> (hget key (ci_refs x') = Some q <-> hget key (ld_refs d) <> None)) /\
  (forall key, hget key (ld_members d) = None -> hget key (ci_values x') = None) /\
  (forall key, hget key (ld_refs d) = None -> hget key (ci_refs x') = None).
Proof.
  intros d c c' x x' R K. pose proof (counterpart_recast d c c' x x' R K) as Rx. inversion Rx as [x0 x1 Hv Hr]; subst x0 x1. split; [|split; [|split]].
  - intros key q G. specialize (Hv key). rewrite G in Hv. destruct (hget key (ld_members d)) as [[i dv]|]; cbn [option_map snd] in Hv; inversion Hv as [v E1 E2 E3|dv0 q0 E1 E2 E3| | | | | |]; split; intros A; try congruence; try discriminate A.
  - intros key q G. specialize (Hr key). rewrite G in Hr. destruct (hget key (ld_refs d)) as [[i dv]|]; cbn [option_map snd] in Hr; inversion Hr; split; intros A; congruence.
  - intros key G. specialize (Hv key). rewrite G in Hv. cbn [option_map] in Hv. inversion Hv. reflexivity.
  - intros key G. specialize (Hr key). rewrite G in Hr. cbn [option_map] in Hr. inversion Hr. reflexivity.
Qed.
Print Assumptions C43_inner_kept.

(** No document with an item in an inner list can be moved, if a member of the list of the root can
    be undefined and the inner list has no member of that name. *)
Theorem C43_inner_fails : forall iter new old, iterates iter -> different_names new -> root_valid new false -> distinct_root new -> changeable_lists (ro_sabun old) ->
  forall key i d u l next, In (key, (i, WMList (Def d) u)) (ro_default new) -> u = false \/ is_some (hget key (ro_default old)) = true -> hget key (ro_sabun old) = Some (RMut (Some (l, next))) ->
  forall id c inner j d1 u1 l1 next1 member k dv, In (id, c) l -> hget inner (ld_members d) = Some (j, DMil (Def d1) u1) -> hget inner (ci_values c) = Some (VMil (Some (l1, next1))) -> l1 <> [] ->
  hget member (ld_members d) = Some (k, dv) -> can_be_undefined dv -> hget member (ld_members d1) = None ->
  adjust_versions iter new old true = Err.
Proof.
  intros iter new old It D V Dn C key i d u l next I K E id c inner j d1 u1 l1 next1 member k dv Ic Gi Gc Ne Gm Cu Gn.
  destruct (C43_reported iter new old It D V Dn C) as (r & H & _ & F). apply F. intros (_ & Vr).
  destruct (C43_inner iter new old false r It D C H key i (Def d) u l next I K E) as (l' & Gr & Ids & R).
  cbn [undef] in R. assert (Ed : ro_default r = ro_default new) by (apply (adjust_root iter It _ _ _ _ D H)). specialize (Vr key i (WMList (Def d) u)). rewrite Ed in Vr. destruct (Vr I) as [_ Vl]. destruct (Vl _ Gr) as [(l2 & n2 & E2 & Vi)|[E2 _]]; [|discriminate E2]. injection E2 as <- <-.
  assert (Len : length l' = length l) by (rewrite <- (map_length fst l'), Ids; apply map_length). destruct (combine_in_l l l' (id, c) Len Ic) as ([id' c'] & Ip).
  assert (id' = id) as ->.
  { clear - Ip Ids. revert l' Ids Ip. induction l as [|[a b] l IH]; intros [|[a' b'] l'] Ids Ip; try destruct Ip as [].
    - injection H as <- <- <- <-. cbn [map fst] in Ids. congruence.
    - apply (IH l'); [cbn [map fst] in Ids; congruence|exact H]. }
  pose proof (R _ _ _ Ip) as Rc. inversion Rc as [c0 c0' Hv _]; subst c0 c0'. pose proof (Hv inner) as Hi. rewrite Gi, Gc in Hi. cbn [option_map snd] in Hi. inversion Hi as [| | |dv0 l0 l1' n0 Ids1 R1 Q1 Q2 Q3| | | |]; subst.
  pose proof (Vi id c' (in_combine_r _ _ _ _ Ip)) as Vc. inversion Vc as [d0 c1 _ Vv]; subst. destruct (Vv inner _ (DiffProofs.hget_in _ _ _ (eq_sym Q3))) as (_ & j' & dv' & G' & Vm). rewrite Gi in G'. injection G' as <- <-.
  inversion Vm as [| |d2 u2 l2 n2 Vx|]; subst. destruct l1 as [|[a x] l1]; [congruence|]. destruct l1' as [|[a' x'] l1']; [discriminate Ids1|]. injection Ids1 as -> _.
  pose proof (R1 a x x' (or_introl eq_refl)) as Rx. inversion Rx as [x0 x1 Hx _]; subst x0 x1. specialize (Hx member). rewrite Gm in Hx. cbn [option_map snd] in Hx.
  pose proof (Vx a x' (or_introl eq_refl)) as Vy. inversion Vy as [d2 c2 _ Vz]; subst.
  assert (Z : hget member (ci_values x') = None).
  { destruct (hget member (ci_values x')) as [v|] eqn:Q; [|reflexivity]. destruct (Vz member v (DiffProofs.hget_in _ _ _ Q)) as (_ & i' & dv' & G' & _). congruence. }
  rewrite Z in Hx. inversion Hx; subst; cbn [can_be_undefined] in Cu; try contradiction; try discriminate Cu.
Qed.
Print Assumptions C43_inner_fails.

(* ------------------------------------------------------------------ *)
(** * A case *)

(** a list with the members a, x, which can be undefined, and l; the items of l have the members
    a and y *)
Definition inner_root : list (name * jval) :=
  [(txt "list", mlist_of [(txt "a", JInt 0); (txt "x!", JInt 3); (txt "l", JArray [JString (txt "MilDef"); JArray [JMap [(txt "y", JInt 1); (txt "a", JInt 2)]]])]
     [JMap [(txt "l", JArray [JString (txt "Mil"); JMap [(txt "y", JInt 5); (txt "a", JInt 7)]])]])].
Lemma inner_valid r : source inner_root = Ok r -> distinct_root r /\ root_valid r false.
Proof. apply source_valid. unique_files. Qed.

(** The document is moved to the source it is from: the value of a is kept, as the outer list has a
    member a, and that of y is lost; with validation, moving fails. *)
Example C43_inner_case : exists old r c c' x x' l next, source inner_root = Ok old /\ adjust_versions backwards old old false = Ok r /\ adjust_versions backwards old old true = Err /\
  different_names old /\ root_valid old false /\ distinct_root old /\ changeable_lists (ro_sabun old) /\
  list_of old (txt "list") = [(0, c)] /\ hget (txt "l") (ci_values c) = Some (VMil (Some (l, next))) /\ l <> [] /\ list_of r (txt "list") = [(0, c')] /\ counterpart c c' x x' /\
  hget (txt "y") (ci_values x) = Some (VParam (PInt (Val 5))) /\ hget (txt "y") (ci_values x') = None /\
  hget (txt "a") (ci_values x) = Some (VParam (PInt (Val 7))) /\ hget (txt "a") (ci_values x') = Some (VParam (PInt (Val 7))).
Proof.
  destruct (source inner_root) as [old| |] eqn:En; [|vm_compute in En; discriminate En|vm_compute in En; discriminate En]. exists old.
  assert (distinct_root old /\ root_valid old false) as [Dn Vn] by (apply inner_valid, En).
  vm_compute in En. apply Ok_inj in En. subst old. do 7 eexists. split; [reflexivity|]. split; [vm_compute; reflexivity|]. split; [vm_compute; reflexivity|]. split.
  { split; [repeat constructor; cbn; intuition discriminate|]. intros key id d u [E|[E|[]]]; injection E as <- <- <- <- || discriminate E. split; repeat constructor; cbn; intuition discriminate. }
  split; [exact Vn|]. split; [exact Dn|]. split.
  { intros key l next E. apply DiffProofs.hget_in in E. destruct E as [E|[]]. injection E as <- <- <-. split; [repeat constructor; cbn; intuition lia|].
    intros id c [E|[]]. injection E as <- <-. split.
    - destruct Dn as [Dn _]. apply Dn. exists (txt "list"). do 2 eexists. split; [left; reflexivity|]. cbv iota. do 3 eexists. split; [reflexivity|]. left. reflexivity.
    - intros c' key l Is Il. inversion Is as [c|c k l1 c1 c2 I1 I2 I3|c k l1 n i c1 c2 I1 I2 I3]; subst.
      + destruct Il as [E|[]]; discriminate E.
      + destruct I1 as [E|[]]; discriminate E.
      + destruct I1 as [E|[]]. injection E as <- <- <-. destruct I2 as [E|[]]. injection E as <- <-.
        inversion I3 as [c|c k l1 c1 c3 I1 I2 I4|c k l1 n i c1 c3 I1 I2 I4]; subst; [destruct Il as [E|[E|[]]]|destruct I1 as [E|[E|[]]]|destruct I1 as [E|[E|[]]]]; discriminate E. }
  split; [vm_compute; reflexivity|]. split; [vm_compute; reflexivity|]. split; [discriminate|]. split; [vm_compute; reflexivity|].
  split; [eapply (counterpart_in _ _ (txt "l")); [vm_compute; reflexivity|vm_compute; reflexivity|left; reflexivity]|].
  split; [reflexivity|]. split; [reflexivity|]. split; reflexivity.
Qed.
