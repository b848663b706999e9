(** C76: what the functions generated from a new version of the source read in documents of an
    older version. *)
From Coq Require Import String.
From Verif Require Import Base StringCompactionModel LinkedModel LinkedSpec DocModel JsonModel JsonSpec JsonProofs JsonProps ValidModel ValidSpec ValidProofs ValidProps LoadSpec LoadProofs AdjustModel AdjustSpec AdjustProofs AdjustProps InnerSpec InnerProps.
From Verif Require GenModel GenSpec GenProofs GenCheckProofs CodeNameProofs CodeProps.
From Verif Require Import IntfModel IntfSpec IntfProofs ReadModel AgainModel CodeSpec RunModel RunSpec RunWayProofs RunProps ToldSpec ToldProps UpdateSpec.

Local Notation "! s" := (txt s%string) (at level 0, s at level 0).
Local Notation "'var' s" := (EVar (txt s%string)) (at level 0, s at level 0).

Lemma tame_names r : GenSpec.tame (ro_default r) -> different_names r.
Proof.
  intros T. split; [apply (GenSpec.t_keys _ T)|]. intros key id [d] u I. cbn [undef].
  pose proof (GenSpec.listed_mlist _ key id d u I) as L. split; [apply (GenSpec.t_members _ T key d L)|apply (GenSpec.t_refs _ T key d L)].
Qed.

Lemma unwrapped_as {A} (f : qv A -> val) vt tr (c : qv A) : read_as f vt tr c (gives f tr (unwrapped vt (Some c))).
Proof.
  destruct c as [a| |]; [exact (read_allowed f vt tr (Val a) Logic.I)|..].
  - destruct vt; [apply read_refused; cbn; intuition discriminate|apply read_refused; cbn; intuition discriminate|exact (read_allowed f Undefiable tr Undefined (or_introl eq_refl))|exact (read_allowed f UndefNullable tr Undefined (or_intror eq_refl))].
  - destruct vt; [apply read_refused; cbn; intuition discriminate|exact (read_allowed f Nullable tr Null (or_introl eq_refl))|apply read_refused; cbn; intuition discriminate|exact (read_allowed f UndefNullable tr Null (or_intror eq_refl))].
Qed.
Lemma undefined_contents p q : undefined_of p q -> contents q = Undefined.
Proof. intros [_ E]. destruct q as [[| |]|[| |]|[| |]|[| |]|[| |]|[| |]|[| |]]; try discriminate E; reflexivity. Qed.
Lemma allows_contents vt q : allows_param vt q -> allows vt (contents q).
Proof. destruct q as [[| |]|[| |]|[| |]|[| |]|[| |]|[| |]|[| |]]; intros A; exact A. Qed.
Lemma undefined_dec vt : allows_undefined vt \/ ~ allows_undefined vt.
Proof. unfold allows_undefined. destruct vt; try (right; intros [E|E]; discriminate E); left; tauto. Qed.

Lemma root_moved good p0 vt s k o x : carried_root good (WParam p0 vt) s k o x -> (forall y, x = Some y -> exists q, y = RParam q /\ type_of q = type_of p0) ->
  moved_value vt k (match o with Some (RParam q) => Some (contents q) | _ => None end) (match s with Some (RParam q) => contents q | _ => contents p0 end)
    (match x with Some (RParam q) => contents q | _ => contents p0 end).
Proof.
  intros M V. inversion M as [p1 vt1 s1 o1 q Al U|p1 vt1 s1 k1 o1 K|p1 vt1 s1 k1 K| | | | | |]; subst.
  - split; [intros _; apply (undefined_contents _ _ U)|intros [E|E]; [discriminate E|contradiction]].
  - destruct (V _ eq_refl) as (q & -> & _). split; [intros [E F]; destruct K as [K|K]; [congruence|contradiction]|intros _; reflexivity].
  - split; [intros [E F]; destruct K as [K|K]; [congruence|contradiction]|intros _; reflexivity].
Qed.

(** Members of the root. *)
Theorem C76_root : forall iter new old z, iterates iter -> distinct_root new -> changeable_lists (ro_sabun old) -> adjust_versions iter new old true = Ok z ->
  forall p told G key i p0 vt tr, accessible (ro_old new) new p -> has_root G -> In (key, (i, WParam p0 vt)) (ro_default new) ->
  exists c R, read_as (as_marked VOf vt) vt tr c R /\ evals p iter z told G (root_member (ro_old new) key) tr R /\
    moved_value vt (is_some (hget key (ro_default old)))
      (match hget key (ro_sabun old) with Some (RParam q) => Some (contents q) | _ => None end)
      (match hget key (ro_sabun new) with Some (RParam q) => contents q | _ => contents p0 end) c.
Proof.
  intros iter new old z It Dn C H p told G key i p0 vt tr A HG I. pose proof A as (T & _). pose proof (tame_names new T) as D.
  destruct (C43_members_partial iter new old true z It D H) as (Ed & Eo & _ & M). pose proof (C43_conforms iter new old z It D Dn C H) as (_ & V). rewrite Ed in V. specialize (V key i (WParam p0 vt) I). cbv beta iota in V.
  assert (Az : accessible (ro_old new) z p) by (unfold accessible; rewrite Ed; exact A). pose proof (DiffProofs.in_hget _ _ _ (GenSpec.t_keys _ T) I) as Gk.
  pose proof I as Iz. rewrite <- Ed in Iz. pose proof (proj1 (C68_root (ro_old new) iter z told p G key i p0 vt tr Az HG Iz)) as X. specialize (M key). rewrite Gk in M.
  assert (Y : exists c, get_root_param z key = unwrapped vt (Some c) /\ c = match hget key (ro_sabun z) with Some (RParam q) => contents q | _ => contents p0 end).
  { unfold get_root_param, root_obj_param, get_as. rewrite Ed, Gk. destruct (hget key (ro_sabun z)) as [[q|l]|] eqn:Gz.
    - destruct (V _ eq_refl) as (q' & Eq & Tq). injection Eq as <-. rewrite Tq. replace (eqb_type (type_of p0) (type_of p0)) with true by (symmetry; apply eqb_type_iff; reflexivity). eauto.
    - destruct (V _ eq_refl) as (q' & Eq & _). discriminate Eq.
    - replace (eqb_type (type_of p0) (type_of p0)) with true by (symmetry; apply eqb_type_iff; reflexivity). eauto. }
  destruct Y as (c & Y & Ec). exists c, (gives (as_marked VOf vt) tr (unwrapped vt (Some c))). split; [apply unwrapped_as|]. split; [rewrite <- Y; exact X|].
  rewrite Ec. exact (root_moved flat p0 vt _ _ _ _ M V).
Qed.
Print Assumptions C76_root.

(** a list of the root after moving *)
Lemma list_moved iter new old z : iterates iter -> distinct_root new -> changeable_lists (ro_sabun old) -> adjust_versions iter new old true = Ok z -> GenSpec.tame (ro_default new) ->
  forall t i d u l next, In (t, (i, WMList (Def d) u)) (ro_default new) -> is_some (hget t (ro_default old)) = true \/ u = false -> hget t (ro_sabun old) = Some (RMut (Some (l, next))) ->
  ro_default z = ro_default new /\ exists l', root_mlist z t = Some (Some l', Def d) /\ map fst l' = map fst l /\ NoDup (map fst l) /\
    forall id c, In (id, c) l -> exists c', lookup id l' = Some c' /\ recast d c c' /\ item_valid z true (Def d) c'.
Proof.
  intros It Dn C H T t i d u l next I K E. pose proof (tame_names new T) as D. destruct (C43_members_partial iter new old true z It D H) as (Ed & _). split; [exact Ed|].
  assert (K' : u = false \/ is_some (hget t (ro_default old)) = true) by tauto.
  destruct (C43_inner iter new old true z It D C H t i (Def d) u l next I K' E) as (l' & Gz & Ids & R). cbn [undef] in R. destruct (C _ _ _ E) as [N _].
  exists l'. split; [unfold root_mlist; rewrite Ed, (DiffProofs.in_hget _ _ _ (GenSpec.t_keys _ T) I), Gz; reflexivity|]. split; [exact Ids|]. split; [exact N|].
  intros id c Ic. assert (Len : length l' = length l) by (rewrite <- (map_length fst l'), Ids; apply map_length). destruct (combine_in_l l l' (id, c) Len Ic) as ([id' c'] & Ip).
  assert (id' = id) as ->.
  { clear - Ip Ids. revert l' Ids Ip. induction l as [|[a b] l IH]; intros [|[a' b'] l'] Ids Ip; try destruct Ip as [].
    - injection H as <- <- <- <-. cbn [map fst] in Ids. congruence.
    - apply (IH l'); [cbn [map fst] in Ids; congruence|exact H]. }
  exists c'. pose proof (in_combine_r _ _ _ _ Ip) as Ic'. split; [apply DiffProofs.in_lookup; [rewrite Ids; exact N|exact Ic']|]. split; [apply (R id c c' Ip)|].
  pose proof (C43_conforms iter new old z It D Dn C H) as (_ & V). rewrite Ed in V. destruct (V _ _ _ I) as [_ Vl]. destruct (Vl _ Gz) as [(l2 & n2 & E2 & Vi)|[E2 _]]; [|discriminate E2]. injection E2 as <- <-. apply (Vi id c' Ic').
Qed.

Lemma member_moved z d c c' key j p0 vt : recast d c c' -> item_valid z true (Def d) c' -> hget key (ld_members d) = Some (j, DParam p0 vt) ->
  exists x, get_param (c', Def d) key = unwrapped vt (Some x) /\ moved_member vt (match hget key (ci_values c) with Some (VParam q) => Some (contents q) | _ => None end) (contents p0) x /\
    (hget key (ci_values c) <> None -> allows vt x).
Proof.
  intros R V G. inversion R as [c0 c1 Hv _]; subst c0 c1. specialize (Hv key). rewrite G in Hv. cbn [option_map snd] in Hv. inversion V as [d2 c2 _ Vv]; subst d2 c2.
  assert (Tr : eqb_type (type_of p0) (type_of p0) = true) by (apply eqb_type_iff; reflexivity).
  unfold get_param, spot_param, get_as. cbn [fst snd undef]. rewrite G.
  destruct (hget key (ci_values c')) as [v'|] eqn:G'.
  - destruct (Vv key v' (DiffProofs.hget_in _ _ _ G')) as (_ & j' & dv & Gd & Vp). rewrite G in Gd. injection Gd as <- <-. inversion Vp as [p1 vt1 q Tq Al| | |]; subst p1 vt1 v'. rewrite Tq, Tr.
    exists (contents q). split; [reflexivity|]. inversion Hv as [| | | | |p1 vt1 q1 Au U| |]; subst.
    + split; [reflexivity|]. intros _. apply allows_contents, Al.
    + split; [|congruence]. split; [intros _; apply (undefined_contents _ _ U)|contradiction].
  - rewrite Tr. exists (contents p0). split; [reflexivity|]. inversion Hv as [| | | |p1 vt1 Na| | |]; subst. split; [|congruence]. split; [contradiction|reflexivity].
Qed.

Lemma row_moved z d c c' key j q0 vt : recast d c c' -> item_valid z true (Def d) c' -> hget key (ld_refs d) = Some (j, (q0, vt)) ->
  exists x, spot_ref_id (c', Def d) key = Some x /\ moved_member vt (hget key (ci_refs c)) q0 x /\ (hget key (ci_refs c) <> None -> allows vt x).
Proof.
  intros R V G. inversion R as [c0 c1 _ Hr]; subst c0 c1. specialize (Hr key). rewrite G in Hr. cbn [option_map snd] in Hr. inversion V as [d2 c2 (_ & Vr) _]; subst d2 c2.
  unfold spot_ref_id. cbn [fst snd undef]. rewrite G. destruct (hget key (ci_refs c')) as [q'|] eqn:G'.
  - destruct (Vr key q' (DiffProofs.hget_in _ _ _ G')) as (_ & _ & j' & q1 & vt1 & Gd & Al). rewrite G in Gd. injection Gd as <- <- <-. exists q'. split; [reflexivity|]. inversion Hr; subst.
    + split; [reflexivity|]. intros _. exact Al.
    + split; [|congruence]. split; [reflexivity|contradiction].
  - exists q0. split; [reflexivity|]. inversion Hr; subst. split; [|congruence]. split; [contradiction|reflexivity].
Qed.

Lemma variant_moved iter z d c c' key j x row : iterates iter -> recast d c c' -> item_valid z true (Def d) c' -> ld_enum d = true -> hget key (ld_refs d) = Some (j, x) -> hget key (ci_refs c) = Some (Val row) ->
  spot_enum iter (c', Def d) = Some (key, row).
Proof.
  intros It R V En G Gc. inversion R as [c0 c1 _ Hr]; subst c0 c1. specialize (Hr key). rewrite G, Gc in Hr. cbn [option_map snd] in Hr. inversion V as [d2 c2 (Vl & _) _]; subst d2 c2. rewrite En in Vl.
  assert (G' : hget key (ci_refs c') = Some (Val row)) by (inversion Hr; reflexivity). destruct (ci_refs c') as [|[a q] [|y m]] eqn:Em; try discriminate Vl.
  cbn in G'. destruct (eqb_bytes a key) eqn:Ea; [|discriminate G']. apply StringCompactionProofs.eqb_bytes_eq in Ea. subst a. injection G' as ->.
  unfold spot_enum. cbn [fst]. rewrite Em. pose proof (It _ [(key, Val row)]) as P. apply Permutation.Permutation_sym, Permutation.Permutation_length_1_inv in P. rewrite P. reflexivity.
Qed.

(** Lists of the root: the functions of the list tell what the old list was, no other items are
    found, and the items have what they had. *)
Theorem C76_items : forall iter new old z, iterates iter -> distinct_root new -> changeable_lists (ro_sabun old) -> adjust_versions iter new old true = Ok z ->
  forall p told G t i d u l next tr, accessible (ro_old new) new p -> has_root G -> In (t, (i, WMList (Def d) u)) (ro_default new) ->
  is_some (hget t (ro_default old)) = true \/ u = false -> hget t (ro_sabun old) = Some (RMut (Some (l, next))) ->
  (forall fn args f, informs fn args f -> evals p iter z told G (of_list (opted u (root_member (ro_old new) t)) fn args) tr (Ok (some (f (map fst l)), tr))) /\
  (forall id, ~ In id (map fst l) -> evals p iter z told G (listed_item (ro_old new) t u id) tr (Ok (none, tr))) /\
  forall id c, In (id, c) l ->
    (forall key j p0 vt, In (key, (j, DParam p0 vt)) (ld_members d) -> exists x R, read_as (fun x => some (as_marked VOf vt x)) vt tr x R /\
       evals p iter z told G (item_member (ro_old new) t u d id key) tr R /\ (hget key (ci_values c) <> None -> allows vt x) /\
       moved_member vt (match hget key (ci_values c) with Some (VParam q) => Some (contents q) | _ => None end) (contents p0) x) /\
    (ld_enum d = false -> forall key j q0 vt, In (key, (j, (q0, vt))) (ld_refs d) -> exists x R, read_as (fun x => some (as_marked (fun s => VText s) vt x)) vt tr x R /\
       evals p iter z told G (item_row (ro_old new) t u d id key) tr R /\ (hget key (ci_refs c) <> None -> allows vt x) /\ moved_member vt (hget key (ci_refs c)) q0 x) /\
    (ld_enum d = true -> forall key j x row, In (key, (j, x)) (ld_refs d) -> hget key (ci_refs c) = Some (Val row) ->
       evals p iter z told G (item_variant (ro_old new) t u id) tr (Ok (some (VPair (VText key) (VText row)), tr))).
Proof.
  intros iter new old z It Dn C H p told G t i d u l next tr A HG I K E. pose proof A as (T & _).
  destruct (list_moved iter new old z It Dn C H T t i d u l next I K E) as (Ed & l' & Gl & Ids & N & M).
  assert (Az : accessible (ro_old new) z p) by (unfold accessible; rewrite Ed; exact A). pose proof I as Iz. rewrite <- Ed in Iz.
  pose proof (DiffProofs.in_hget _ _ _ (GenSpec.t_keys _ T) I) as Gt.
  assert (Vi : forall id, visit iter z (Entry t id) = Ok (option_map (fun c => (c, Def d)) (lookup id l'))).
  { intros id. cbn [visit]. rewrite Ed, Gt. unfold get_list, need. rewrite Gl. cbn [Base.bind fst]. unfold item_of_list, mlist_item. reflexivity. }
  pose proof (fun id => goes_entry (ro_old new) (ro_default z) t i d u id Iz) as Go. split; [|split].
  - intros fn args f In. eapply evals_R; [exact (C75_tells (ro_old new) iter z told p G (RootItems t) t d _ fn args f tr Az HG (reaches_root (ro_old new) (ro_default z) t i d u Iz) In)|].
    unfold ask. rewrite Ed, Gt. unfold get_list, need. rewrite Gl. cbn [Base.bind fst ids_of option_map informed]. rewrite Ids. reflexivity.
  - intros id Ni. eapply evals_R; [exact (C68_way (ro_old new) iter z told p G (Entry t id) false t d _ tr Az HG (Go id))|]. rewrite Vi.
    replace (lookup id l') with (@None citem); [reflexivity|]. symmetry. apply LinkedProofs.lookup_none. unfold LinkedSpec.ids. rewrite Ids. exact Ni.
  - intros id c Ic. destruct (M id c Ic) as (c' & Gc & R & V). specialize (Vi id). rewrite Gc in Vi. cbn [option_map] in Vi. pose proof (GenSpec.listed_mlist _ t i d u I) as L.
    split; [|split].
    + intros key j p0 vt Ik. pose proof (DiffProofs.in_hget _ _ _ (proj1 (GenSpec.t_members _ T t d L)) Ik) as Gk. destruct (member_moved z d c c' key j p0 vt R V Gk) as (x & X & Mm & Al).
      exists x, (gives (fun x => some (as_marked VOf vt x)) tr (unwrapped vt (Some x))). split; [apply unwrapped_as|]. split; [|split; [exact Al|exact Mm]].
      eapply evals_R; [exact (C68_read (ro_old new) iter z told p G (Entry t id) false t d _ key j p0 vt tr Az HG (Go id) Ik)|]. unfold read_at. rewrite Vi. cbn [Base.bind]. rewrite X. destruct (unwrapped vt (Some x)); reflexivity.
    + intros En key j q0 vt Ik. pose proof (DiffProofs.in_hget _ _ _ (proj1 (GenSpec.t_refs _ T t d L)) Ik) as Gk. destruct (row_moved z d c c' key j q0 vt R V Gk) as (x & X & Mm & Al).
      exists x, (gives (fun x => some (as_marked (fun s => VText s) vt x)) tr (unwrapped vt (Some x))). split; [apply unwrapped_as|]. split; [|split; [exact Al|exact Mm]].
      eapply evals_R; [exact (C68_ref_id (ro_old new) iter z told p G (Entry t id) false t d _ key j q0 vt tr Az HG (Go id) En Ik)|]. rewrite Vi. unfold if_there. rewrite X. destruct (unwrapped vt (Some x)); reflexivity.
    + intros En key j x row Ik Gr. pose proof (DiffProofs.in_hget _ _ _ (proj1 (GenSpec.t_refs _ T t d L)) Ik) as Gk.
      eapply evals_R; [exact (C68_enum_ids (ro_old new) iter z told p G (Entry t id) false t d _ tr Az HG (Go id) En)|]. rewrite Vi. unfold if_there. rewrite (variant_moved iter z d c c' key j x row It R V En Gk Gr). reflexivity.
Qed.
Print Assumptions C76_items.

Lemma combine_ids (l l' : list (Z * citem)) id c : map fst l' = map fst l -> In (id, c) l -> exists c', In ((id, c), (id, c')) (combine l l').
Proof.
  intros Ids Ic. assert (Len : length l' = length l) by (rewrite <- (map_length fst l'), Ids; apply map_length). destruct (combine_in_l l l' (id, c) Len Ic) as ([id' c'] & Ip). exists c'.
  replace id with id' at 2; [exact Ip|]. clear - Ip Ids. revert l' Ids Ip. induction l as [|[a b] l IH]; intros [|[a' b'] l'] Ids Ip; try destruct Ip as [].
  - injection H as <- <- <- <-. cbn [map fst] in Ids. congruence.
  - apply (IH l'); [cbn [map fst] in Ids; congruence|exact H].
Qed.
Lemma inner_moved z d d1 x x' key j p0 vt : recast d x x' -> item_valid z true (Def d1) x' -> hget key (ld_members d1) = Some (j, DParam p0 vt) ->
  exists y, get_param (x', Def d1) key = unwrapped vt (Some y) /\
    moved_inner (option_map snd (hget key (ld_members d))) (match hget key (ci_values x) with Some (VParam q) => Some (contents q) | _ => None end) (contents p0) y.
Proof.
  intros R V G. inversion R as [c0 c1 Hv _]; subst c0 c1. specialize (Hv key). inversion V as [d2 c2 _ Vv]; subst d2 c2.
  assert (Tr : eqb_type (type_of p0) (type_of p0) = true) by (apply eqb_type_iff; reflexivity).
  unfold get_param, spot_param, get_as. cbn [fst snd undef]. rewrite G.
  destruct (hget key (ci_values x')) as [v'|] eqn:G'.
  - destruct (Vv key v' (DiffProofs.hget_in _ _ _ G')) as (_ & j' & dv & Gd & Vp). rewrite G in Gd. injection Gd as <- <-. inversion Vp as [p1 vt1 q Tq Al| | |]; subst p1 vt1 v'. rewrite Tq, Tr.
    exists (contents q). split; [reflexivity|]. inversion Hv as [|dv q1 E1 E2 E3| | | |p1 vt1 q1 Au U| |]; subst.
    + reflexivity.
    + split; [intros _; apply (undefined_contents _ _ U)|contradiction].
  - rewrite Tr. exists (contents p0). split; [reflexivity|]. inversion Hv as [v E1 E2 E3| | | |p1 vt1 Na| | |]; subst.
    + reflexivity.
    + split; [contradiction|reflexivity].
    + split; [contradiction|reflexivity].
Qed.

(** Items of inner lists: they are found by their ids, but they keep only the members whose names
    are also those of members of the list around. *)
Theorem C76_inner : forall iter new old z, iterates iter -> distinct_root new -> changeable_lists (ro_sabun old) -> adjust_versions iter new old true = Ok z ->
  forall p told G t i d u l next tr, accessible (ro_old new) new p -> has_root G -> In (t, (i, WMList (Def d) u)) (ro_default new) ->
  is_some (hget t (ro_default old)) = true \/ u = false -> hget t (ro_sabun old) = Some (RMut (Some (l, next))) ->
  forall id c inner k d1 u1 l1 next1, In (id, c) l -> In (inner, (k, DMil (Def d1) u1)) (ld_members d) -> hget inner (ci_values c) = Some (VMil (Some (l1, next1))) ->
  (forall id1, ~ In id1 (map fst l1) -> evals p iter z told G (inner_item (ro_old new) t u d id inner u1 id1) tr (Ok (none, tr))) /\
  forall id1 x key j p0 vt, In (id1, x) l1 -> In (key, (j, DParam p0 vt)) (ld_members d1) -> exists y R, read_as (fun y => some (as_marked VOf vt y)) vt tr y R /\
    evals p iter z told G (inner_member (ro_old new) t u d id inner u1 d1 id1 key) tr R /\
    moved_inner (option_map snd (hget key (ld_members d))) (match hget key (ci_values x) with Some (VParam q) => Some (contents q) | _ => None end) (contents p0) y.
Proof.
  intros iter new old z It Dn C H p told G t i d u l next tr A HG I K E id c inner k d1 u1 l1 next1 Ic Ii Gi. pose proof A as (T & _).
  destruct (list_moved iter new old z It Dn C H T t i d u l next I K E) as (Ed & l' & Gl & Ids & N & M).
  assert (Az : accessible (ro_old new) z p) by (unfold accessible; rewrite Ed; exact A). pose proof I as Iz. rewrite <- Ed in Iz.
  pose proof (DiffProofs.in_hget _ _ _ (GenSpec.t_keys _ T) I) as Gt. pose proof (GenSpec.listed_mlist _ t i d u I) as L. pose proof (GenSpec.listed_mil _ t d inner k d1 u1 L Ii) as L1.
  pose proof (DiffProofs.in_hget _ _ _ (proj1 (GenSpec.t_members _ T t d L)) Ii) as Gd.
  destruct (M id c Ic) as (c' & Gc & R & V). inversion R as [c0 c1 Hv _]; subst c0 c1. pose proof (Hv inner) as Hi. rewrite Gd, Gi in Hi. cbn [option_map snd] in Hi.
  inversion Hi as [| | |dv la l1' na Ids1 R1| | | |]; subst dv la na. match goal with X : Some (VMil (Some (l1', _))) = _ |- _ => rename X into Gi'; symmetry in Gi' end. inversion V as [d2 c2 _ Vv]; subst d2 c2.
  destruct (Vv inner _ (DiffProofs.hget_in _ _ _ Gi')) as (_ & k2 & dv & Gd2 & Vm). rewrite Gd in Gd2. injection Gd2 as <- <-. inversion Vm as [| |d2 u2 l2 n2 Vx|]; subst d2 u2 l2 n2.
  assert (N1 : NoDup (map fst l1)). { destruct (C _ _ _ E) as [_ Cc]. destruct (Cc id c Ic) as [Di _]. inversion Di as [c0 _ Nd _]; subst c0. apply (Nd inner l1 next1), DiffProofs.hget_in, Gi. }
  assert (Vi : forall id1, visit iter z (Mil (Entry t id) inner id1) = Ok (option_map (fun c => (c, Def d1)) (lookup id1 l1'))).
  { intros id1. cbn [visit]. rewrite Ed, Gt. unfold get_list, need. rewrite Gl. cbn [Base.bind fst]. unfold item_of_list, mlist_item. cbn [fst snd]. rewrite Gc. cbn [option_map Base.bind snd undef]. rewrite Gd.
    unfold spot_mil. cbn [fst snd undef]. rewrite Gd, Gi'. reflexivity. }
  pose proof (fun id1 => goes_mil (ro_old new) (ro_default z) (Entry t id) t d _ inner k d1 u1 id1 (goes_entry (ro_old new) (ro_default z) t i d u id Iz) Ii) as Go. split.
  - intros id1 Ni. eapply evals_R; [exact (C68_way (ro_old new) iter z told p G _ false inner d1 _ tr Az HG (Go id1))|]. rewrite Vi.
    replace (lookup id1 l1') with (@None citem); [reflexivity|]. symmetry. apply LinkedProofs.lookup_none. unfold LinkedSpec.ids. rewrite Ids1. exact Ni.
  - intros id1 x key j p0 vt Ix Ik. destruct (combine_ids l1 l1' id1 x Ids1 Ix) as (x' & Ip). pose proof (in_combine_r _ _ _ _ Ip) as Ix'.
    pose proof (DiffProofs.in_hget _ _ _ (proj1 (GenSpec.t_members _ T inner d1 L1)) Ik) as Gk. destruct (inner_moved z d d1 x x' key j p0 vt (R1 id1 x x' Ip) (Vx id1 x' Ix') Gk) as (y & Y & Mm).
    exists y, (gives (fun y => some (as_marked VOf vt y)) tr (unwrapped vt (Some y))). split; [apply unwrapped_as|]. split; [|exact Mm].
    eapply evals_R; [exact (C68_read (ro_old new) iter z told p G _ false inner d1 _ key j p0 vt tr Az HG (Go id1) Ik)|]. unfold read_at. rewrite Vi, (DiffProofs.in_lookup id1 x' l1'); [|rewrite Ids1; exact N1|exact Ix'].
    cbn [option_map Base.bind]. rewrite Y. destruct (unwrapped vt (Some y)); reflexivity.
Qed.
Print Assumptions C76_inner.

(** What was set is read the same in both versions: by the functions of the old version in the old
    document, and by those of the new version after moving. *)
Theorem C76_kept : forall iter new old z, iterates iter -> distinct_root new -> changeable_lists (ro_sabun old) -> root_valid old true -> adjust_versions iter new old true = Ok z ->
  forall p told G p' told' G' tr iter', accessible (ro_old old) old p -> has_root G -> accessible (ro_old new) new p' -> has_root G' ->
  let before := evals p iter' old told G in let after := evals p' iter z told' G' in
  (forall key i p0 vt i' p1 vt', In (key, (i, WParam p0 vt)) (ro_default old) -> In (key, (i', WParam p1 vt')) (ro_default new) -> hget key (ro_sabun old) <> None ->
    exists x R R', before (root_member (ro_old old) key) tr R /\ read_as (as_marked VOf vt) vt tr x R /\ after (root_member (ro_old new) key) tr R' /\ read_as (as_marked VOf vt') vt' tr x R') /\
  forall t i d u i' d' u' l next, In (t, (i, WMList (Def d) u)) (ro_default old) -> In (t, (i', WMList (Def d') u')) (ro_default new) -> hget t (ro_sabun old) = Some (RMut (Some (l, next))) ->
    (forall fn args f, informs fn args f -> exists R, before (of_list (opted u (root_member (ro_old old) t)) fn args) tr R /\ after (of_list (opted u' (root_member (ro_old new) t)) fn args) tr R) /\
    forall id c, In (id, c) l ->
    (forall key j p0 vt j' p1 vt', In (key, (j, DParam p0 vt)) (ld_members d) -> In (key, (j', DParam p1 vt')) (ld_members d') -> hget key (ci_values c) <> None ->
      exists x, before (item_member (ro_old old) t u d id key) tr (Ok (some (as_marked VOf vt x), tr)) /\ after (item_member (ro_old new) t u' d' id key) tr (Ok (some (as_marked VOf vt' x), tr)) /\ allows vt x /\ allows vt' x) /\
    (ld_enum d = false -> ld_enum d' = false -> forall key j q0 vt j' q1 vt', In (key, (j, (q0, vt))) (ld_refs d) -> In (key, (j', (q1, vt'))) (ld_refs d') -> hget key (ci_refs c) <> None ->
      exists x, before (item_row (ro_old old) t u d id key) tr (Ok (some (as_marked (fun s => VText s) vt x), tr)) /\ after (item_row (ro_old new) t u' d' id key) tr (Ok (some (as_marked (fun s => VText s) vt' x), tr)) /\ allows vt x /\ allows vt' x).
Proof.
  intros iter new old z It Dn C Vo H p told G p' told' G' tr iter' A HG A' HG' before after. pose proof A as (T & _). destruct Vo as (_ & V).
  assert (Tr : forall a, eqb_type a a = true) by (intros a; apply eqb_type_iff; reflexivity). split.
  - intros key i p0 vt i' p1 vt' I I' Gs. specialize (V key i (WParam p0 vt) I). cbv beta iota in V. destruct (hget key (ro_sabun old)) as [s|] eqn:Gk; [|congruence]. destruct (V s eq_refl) as (q & -> & Tq).
    destruct (C76_root iter new old z It Dn C H p' told' G' key i' p1 vt' tr A' HG' I') as (x & R' & Ra & Ev & Mv). rewrite Gk in Mv. pose proof (DiffProofs.in_hget _ _ _ (GenSpec.t_keys _ T) I) as Gd. rewrite Gd in Mv. cbn [is_some] in Mv.
    destruct Mv as (_ & Mv). specialize (Mv (or_introl eq_refl)). cbv beta iota in Mv. subst x.
    exists (contents q), (gives (as_marked VOf vt) tr (unwrapped vt (Some (contents q)))), R'. split; [|split; [apply unwrapped_as|split; [exact Ev|exact Ra]]].
    eapply evals_R; [exact (proj1 (C68_root (ro_old old) iter' old told p G key i p0 vt tr A HG I))|]. unfold get_root_param, root_obj_param, get_as. rewrite Gd, Gk, Tq, Tr. reflexivity.
  - intros t i d u i' d' u' l next I I' Gl. pose proof (DiffProofs.in_hget _ _ _ (GenSpec.t_keys _ T) I) as Gt. destruct (C _ _ _ Gl) as [N _].
    assert (K : is_some (hget t (ro_default old)) = true \/ u' = false) by (rewrite Gt; left; reflexivity).
    destruct (C76_items iter new old z It Dn C H p' told' G' t i' d' u' l next tr A' HG' I' K Gl) as (Mi & _ & Ms).
    assert (Gr : root_mlist old t = Some (Some l, Def d)) by (unfold root_mlist; rewrite Gt, Gl; reflexivity). pose proof (fun id => goes_entry (ro_old old) (ro_default old) t i d u id I) as Go.
    pose proof (GenSpec.listed_mlist _ t i d u I) as L. specialize (V t i (WMList (Def d) u) I). cbv beta iota in V. destruct V as (_ & V). destruct (V _ Gl) as [(l2 & n2 & E2 & Vi)|[E2 _]]; [|discriminate E2]. injection E2 as <- <-. split.
    + intros fn args f In. eexists. split; [|apply (Mi fn args f In)]. eapply evals_R; [exact (C75_tells (ro_old old) iter' old told p G (RootItems t) t d _ fn args f tr A HG (reaches_root (ro_old old) (ro_default old) t i d u I) In)|].
      unfold ask. rewrite Gt. unfold get_list, need. rewrite Gr. reflexivity.
    + intros id c Ic. destruct (Ms id c Ic) as (M1 & M2 & _). specialize (Vi id c Ic). inversion Vi as [d2 c2 (_ & Vr) Vv]; subst d2 c2.
      assert (Vs : visit iter' old (Entry t id) = Ok (Some (c, Def d))).
      { cbn [visit]. rewrite Gt. unfold get_list, need. rewrite Gr. cbn [Base.bind fst]. unfold item_of_list, mlist_item. cbn [fst snd]. rewrite (DiffProofs.in_lookup id c l N Ic). reflexivity. }
      split.
      * intros key j p0 vt j' p1 vt' Ik Ik' Gc. destruct (M1 key j' p1 vt' Ik') as (x & R & Ra & Ev & Al & Mm). destruct (hget key (ci_values c)) as [v|] eqn:Gv; [|congruence].
        destruct (Vv key v (DiffProofs.hget_in _ _ _ Gv)) as (_ & j2 & dv & Gd & Vp). pose proof (DiffProofs.in_hget _ _ _ (proj1 (GenSpec.t_members _ T t d L)) Ik) as Gk. rewrite Gk in Gd. injection Gd as <- <-.
        inversion Vp as [p2 vt2 q Tq Aq| | |]; subst p2 vt2 v. cbn [moved_member] in Mm. subst x. specialize (Al Gc). exists (contents q). split; [|split; [|split; [apply allows_contents, Aq|exact Al]]].
        -- eapply evals_R; [exact (C68_read (ro_old old) iter' old told p G (Entry t id) false t d _ key j p0 vt tr A HG (Go id) Ik)|]. unfold read_at. rewrite Vs. cbn [Base.bind].
           unfold get_param, spot_param, get_as. cbn [fst snd undef]. rewrite Gk, Gv, Tq, Tr, (allows_unwrapped vt _ (allows_contents _ _ Aq)). reflexivity.
        -- inversion Ra as [y Ay|y Ny]; subst; [exact Ev|contradiction].
      * intros En En' key j q0 vt j' q1 vt' Ik Ik' Gc. destruct (M2 En' key j' q1 vt' Ik') as (x & R & Ra & Ev & Al & Mm). destruct (hget key (ci_refs c)) as [q|] eqn:Gv; [|congruence].
        destruct (Vr key q (DiffProofs.hget_in _ _ _ Gv)) as (_ & _ & j2 & q2 & vt2 & Gd & Aq). pose proof (DiffProofs.in_hget _ _ _ (proj1 (GenSpec.t_refs _ T t d L)) Ik) as Gk. rewrite Gk in Gd. injection Gd as <- <- <-.
        cbn [moved_member] in Mm. subst x. specialize (Al Gc). exists q. split; [|split; [|split; [exact Aq|exact Al]]].
        -- eapply evals_R; [exact (C68_ref_id (ro_old old) iter' old told p G (Entry t id) false t d _ key j q0 vt tr A HG (Go id) En Ik)|]. rewrite Vs. unfold if_there, spot_ref_id. cbn [fst snd]. rewrite Gv, (allows_unwrapped vt _ Aq). reflexivity.
        -- inversion Ra as [y Ay|y Ny]; subst; [exact Ev|contradiction].
Qed.
Print Assumptions C76_kept.

(* ------------------------------------------------------------------ *)
(** * A case *)

(** the two versions of the manual (dochy_manual/src/b3_conversion), with other names of members and with a list *)
Definition update_old_members : list (name * jval) :=
  [(txt "before", JInt 10); (txt "list", mlist_of [(txt "x", JInt 1); (txt "gone", JInt 2)] [JMap [(txt "x", JInt 5)]; JMap [(txt "gone", JInt 7)]])].
Definition update_new_members : list (name * jval) :=
  [(txt "before?", JArray [JString (txt "Int"); JNull]); (txt "later!", JInt 100); (txt "list", mlist_of [(txt "x", JInt 100); (txt "extra!", JInt 3)] [])].
Definition loaded_or_none (r : res root_obj) : root_obj := match r with Ok r => r | _ => RootObj [] [] [] [] end.
Definition update_new : root_obj := Eval vm_compute in loaded_or_none (source update_new_members).
(** [set_before(2)] *)
Definition update_old : root_obj := Eval vm_compute in with_value (loaded_or_none (source update_old_members)) (txt "before") (RParam (PInt (Val 2))).
Definition update_moved : root_obj := Eval vm_compute in loaded_or_none (adjust_versions backwards update_new update_old true).
Definition update_list (r : root_obj) : ldef def := match hget !"list" (ro_default r) with Some (_, WMList (Def l) _) => l | _ => LDef [] [] false [] [] end.

Lemma update_accessible r : GenSpec.tame (ro_default r) -> exists p, accessible (ro_old r) r p.
Proof. intros T. destruct (CodeProps.C66_written (ro_old r) _ (CodeNameProofs.tame_speakable _ T)) as (p & D & _). exists p. split; [exact T|exact D]. Qed.
Lemma update_new_distinct : distinct_root update_new.
Proof. apply (source_valid update_new_members); [unique_files|vm_compute; reflexivity]. Qed.
Lemma update_old_lists : changeable_lists (ro_sabun update_old).
Proof.
  intros key l next E. apply DiffProofs.hget_in in E. destruct E as [E|[E|[]]]; try discriminate E; injection E as <- <- <-.
  split; [repeat constructor; cbn; intuition lia|]. intros id c [E|[E|[]]]; injection E as <- <-; apply params_changeable; reflexivity.
Qed.
Lemma update_old_valid : root_valid update_old true.
Proof.
  assert (D : distinct_root update_old).
  { split.
    - intros c (key & i & v & I & H). destruct v as [p vt|d rows o|d l|d u].
      + destruct H.
      + destruct H as (row & H). destruct I as [E|[E|[E|[]]]]; try discriminate E. injection E as <- <- <- <- <-. cbn in H.
        repeat (destruct H as [E|H]; [injection E as <- <-; apply params_changeable; reflexivity|]). destruct H.
      + destruct I as [E|[E|[E|[]]]]; discriminate E.
      + destruct H as (l & next & id & G & H). exact (proj1 (proj2 (update_old_lists key l next G) id c H)).
    - intros key i d u l next _ G. exact (proj1 (update_old_lists key l next G)). }
  apply (validate_root_iff update_old true D). vm_compute. reflexivity.
Qed.

Lemma update_in_list : In (!"list", (2, WMList (Def (update_list update_new)) false)) (ro_default update_new).
Proof. found. Qed.
Lemma update_in_later : In (!"later", (1, WParam (PInt (Val 100)) Undefiable)) (ro_default update_new).
Proof. found. Qed.
Lemma update_in_before : In (!"before", (0, WParam (PInt Null) Nullable)) (ro_default update_new).
Proof. found. Qed.
Lemma update_in_x : In (!"x", (0, DParam (PInt (Val 100)) Normal)) (ld_members (update_list update_new)).
Proof. found. Qed.
Lemma update_in_extra : In (!"extra", (1, DParam (PInt (Val 3)) Undefiable)) (ld_members (update_list update_new)).
Proof. found. Qed.
Lemma update_list_was : hget !"list" (ro_sabun update_old) =
  Some (RMut (Some ([(0, CItem [(!"x", VParam (PInt (Val 5)))] []); (1, CItem [(!"gone", VParam (PInt (Val 7)))] [])], 2))).
Proof. vm_compute. reflexivity. Qed.

(** The program reads 2, the value of the old version; what is new is undefined.  An item that
    had no value for x has the default of the new version. *)
Example C76_case : exists p, accessible (ro_old update_new) update_new p /\ adjust_versions backwards update_new update_old true = Ok update_moved /\
  distinct_root update_new /\ changeable_lists (ro_sabun update_old) /\ root_valid update_old true /\
  forall told tr, let G := [(!"root", root_value)] in let reads := evals p backwards update_moved told G in let in_list id := item_member (ro_old update_new) !"list" false (update_list update_new) id in
    reads (do var"root" !"later" []) tr (Ok (VMake !"UndefOr" !"Undefined" [], tr)) /\
    reads (do var"root" !"before" []) tr (Ok (VMake !"NullOr" !"Val" [VOf (CInt 2)], tr)) /\
    reads (in_list 0 !"x") tr (Ok (some (VOf (CInt 5)), tr)) /\ reads (in_list 1 !"x") tr (Ok (some (VOf (CInt 100)), tr)) /\
    reads (in_list 0 !"extra") tr (Ok (some (VMake !"UndefOr" !"Undefined" []), tr)) /\
    reads (listed_item (ro_old update_new) !"list" false 2) tr (Ok (none, tr)).
Proof.
  destruct (update_accessible update_new) as (p & A); [apply GenCheckProofs.tameb_tame; vm_compute; reflexivity|]. exists p. split; [exact A|].
  assert (H : adjust_versions backwards update_new update_old true = Ok update_moved) by (vm_compute; reflexivity). split; [exact H|]. pose proof update_new_distinct as D. pose proof update_old_lists as C.
  split; [exact D|]. split; [exact C|]. split; [exact update_old_valid|]. intros told tr G reads in_list. assert (HG : has_root G) by reflexivity.
  pose proof update_in_list as Il. pose proof update_list_was as Gl. pose proof update_in_x as Ix. pose proof update_in_extra as Ie. pose proof update_in_later as J1. pose proof update_in_before as J2.
  destruct (C76_items backwards update_new update_old update_moved backwards_iterates D C H p told G !"list" 2 (update_list update_new) false _ 2 tr A HG Il (or_intror eq_refl) Gl) as (_ & No & It).
  destruct (It 0 _ (or_introl eq_refl)) as (M0 & _). destruct (It 1 _ (or_intror (or_introl eq_refl))) as (M1 & _). clear It.
  split; [|split; [|split; [|split; [|split]]]].
  - destruct (C76_root backwards update_new update_old update_moved backwards_iterates D C H p told G !"later" 1 (PInt (Val 100)) Undefiable tr A HG J1) as (c & R & Ra & Ev & (Mv & _)).
    rewrite (Mv (conj eq_refl (or_introl eq_refl))) in Ra. inversion Ra as [y Ay|y Ny]; subst; [exact Ev|]. destruct Ny. left. reflexivity.
  - destruct (C76_root backwards update_new update_old update_moved backwards_iterates D C H p told G !"before" 0 (PInt Null) Nullable tr A HG J2) as (c & R & Ra & Ev & (_ & Mv)).
    specialize (Mv (or_introl eq_refl)). vm_compute in Mv. subst c. inversion Ra as [y Ay|y Ny]; subst; [exact Ev|]. destruct Ny. exact Logic.I.
  - destruct (M0 _ _ _ _ Ix) as (c & R & Ra & Ev & _ & Mm). vm_compute in Mm. subst c. inversion Ra as [y Ay|y Ny]; subst; [exact Ev|]. destruct Ny. exact Logic.I.
  - destruct (M1 _ _ _ _ Ix) as (c & R & Ra & Ev & _ & Mm). destruct Mm as (_ & Mm). rewrite Mm in Ra by (intros [E|E]; discriminate E). inversion Ra as [y Ay|y Ny]; subst; [exact Ev|]. destruct Ny. exact Logic.I.
  - destruct (M0 _ _ _ _ Ie) as (c & R & Ra & Ev & _ & Mm). destruct Mm as (Mm & _). rewrite Mm in Ra by (left; reflexivity). inversion Ra as [y Ay|y Ny]; subst; [exact Ev|]. destruct Ny. left. reflexivity.
  - apply No. cbn. intuition lia.
Qed.

(** A list with the members a and l; the items of l have the members a and y.  The document is
    moved to the source it is from: the accessors read the value 7 of a, as the list around has a
    member a, and of y the default 1 although 5 was set. *)
Definition inside_members : list (name * jval) :=
  [(txt "list", mlist_of [(txt "a", JInt 0); (txt "l", JArray [JString (txt "MilDef"); JArray [JMap [(txt "y", JInt 1); (txt "a", JInt 2)]]])]
     [JMap [(txt "l", JArray [JString (txt "Mil"); JMap [(txt "y", JInt 5); (txt "a", JInt 7)]])]])].
Definition inside : root_obj := Eval vm_compute in loaded_or_none (source inside_members).
Definition inside_moved : root_obj := Eval vm_compute in loaded_or_none (adjust_versions backwards inside inside true).
Definition inside_l : ldef def := match hget !"l" (ld_members (update_list inside)) with Some (_, DMil (Def l) _) => l | _ => LDef [] [] false [] [] end.
Lemma inside_distinct : distinct_root inside.
Proof. apply (source_valid inside_members); [unique_files|vm_compute; reflexivity]. Qed.
Lemma inside_in_list : In (!"list", (0, WMList (Def (update_list inside)) false)) (ro_default inside).
Proof. found. Qed.
Lemma inside_in_l : In (!"l", (1, DMil (Def inside_l) false)) (ld_members (update_list inside)).
Proof. found. Qed.
Lemma inside_in_y : In (!"y", (0, DParam (PInt (Val 1)) Normal)) (ld_members inside_l).
Proof. found. Qed.
Lemma inside_in_a : In (!"a", (1, DParam (PInt (Val 2)) Normal)) (ld_members inside_l).
Proof. found. Qed.
Definition inside_items : list (Z * citem) := [(0, CItem [(!"y", VParam (PInt (Val 5))); (!"a", VParam (PInt (Val 7)))] [])].
Lemma inside_was : hget !"list" (ro_sabun inside) = Some (RMut (Some ([(0, CItem [(!"l", VMil (Some (inside_items, 1)))] [])], 1))).
Proof. vm_compute. reflexivity. Qed.
Lemma inside_lists : changeable_lists (ro_sabun inside).
Proof.
  intros key l next E. apply DiffProofs.hget_in in E. destruct E as [E|[]]. injection E as <- <- <-. split; [repeat constructor; cbn; intuition lia|].
  intros id c [E|[]]. injection E as <- <-. split.
  - destruct inside_distinct as [Dn _]. apply Dn. exists (txt "list"), 0, (WMList (Def (update_list inside)) false). split; [exact inside_in_list|]. cbv iota. do 3 eexists. split; [exact inside_was|]. left. reflexivity.
  - intros c' key l Is Il. inversion Is as [c|c k l1 c1 c2 I1 I2 I3|c k l1 n i c1 c2 I1 I2 I3]; subst.
    + destruct Il as [E|[]]; discriminate E.
    + destruct I1 as [E|[]]; discriminate E.
    + destruct I1 as [E|[]]. injection E as <- <- <-. destruct I2 as [E|[]]. injection E as <- <-.
      inversion I3 as [c|c k l1 c1 c3 I1 I2 I4|c k l1 n i c1 c3 I1 I2 I4]; subst; [destruct Il as [E|[E|[]]]|destruct I1 as [E|[E|[]]]|destruct I1 as [E|[E|[]]]]; discriminate E.
Qed.
Example C76_inner_case : exists p, accessible (ro_old inside) inside p /\ adjust_versions backwards inside inside true = Ok inside_moved /\
  distinct_root inside /\ changeable_lists (ro_sabun inside) /\
  forall told tr, let reads := evals p backwards inside_moved told [(!"root", root_value)] in let at_ := inner_member (ro_old inside) !"list" false (update_list inside) 0 !"l" false inside_l 0 in
    reads (at_ !"a") tr (Ok (some (VOf (CInt 7)), tr)) /\ reads (at_ !"y") tr (Ok (some (VOf (CInt 1)), tr)) /\
    reads (inner_item (ro_old inside) !"list" false (update_list inside) 0 !"l" false 1) tr (Ok (none, tr)).
Proof.
  destruct (update_accessible inside) as (p & A); [apply GenCheckProofs.tameb_tame; vm_compute; reflexivity|]. exists p. split; [exact A|].
  assert (H : adjust_versions backwards inside inside true = Ok inside_moved) by (vm_compute; reflexivity). split; [exact H|]. pose proof inside_distinct as D. pose proof inside_lists as C.
  split; [exact D|]. split; [exact C|]. intros told tr reads at_.
  pose proof inside_in_list as Il. pose proof inside_was as Gl. pose proof inside_in_l as Ii. pose proof inside_in_y as Iy. pose proof inside_in_a as Ia.
  destruct (C76_inner backwards inside inside inside_moved backwards_iterates D C H p told [(!"root", root_value)] !"list" 0 (update_list inside) false _ 1 tr A eq_refl Il (or_intror eq_refl) Gl
    0 _ !"l" 1 inside_l false inside_items 1 (or_introl eq_refl) Ii eq_refl) as (No & M).
  split; [|split].
  - destruct (M 0 _ _ _ _ _ (or_introl eq_refl) Ia) as (c & R & Ra & Ev & Mm). vm_compute in Mm. subst c. inversion Ra as [y Ay|y Ny]; subst; [exact Ev|]. destruct Ny. exact Logic.I.
  - destruct (M 0 _ _ _ _ _ (or_introl eq_refl) Iy) as (c & R & Ra & Ev & Mm). vm_compute in Mm. subst c. inversion Ra as [y Ay|y Ny]; subst; [exact Ev|]. destruct Ny. exact Logic.I.
  - apply No. cbn. intuition lia.
Qed.

(** A null in a member that may not be null in the new version: validation accepts the document,
    and the function that reads the member panics. *)
Definition null_new : root_obj := Eval vm_compute in loaded_or_none (source [(txt "a", JInt 5)]).
Definition null_old : root_obj := Eval vm_compute in with_value (loaded_or_none (source [(txt "a?", JInt 5)])) (txt "a") (RParam (PInt Null)).
Definition null_moved : root_obj := Eval vm_compute in loaded_or_none (adjust_versions in_place null_new null_old true).
Lemma null_in : In (!"a", (0, WParam (PInt (Val 5)) Normal)) (ro_default null_new).
Proof. found. Qed.
Lemma null_distinct : distinct_root null_new.
Proof. apply (source_valid [(txt "a", JInt 5)]); [unique_files|vm_compute; reflexivity]. Qed.
Example C76_null_case : exists p, accessible (ro_old null_new) null_new p /\ adjust_versions in_place null_new null_old true = Ok null_moved /\
  forall told tr, evals p in_place null_moved told [(!"root", root_value)] (do var"root" !"a" []) tr Panic.
Proof.
  destruct (update_accessible null_new) as (p & A); [apply GenCheckProofs.tameb_tame; vm_compute; reflexivity|]. exists p. split; [exact A|].
  assert (H : adjust_versions in_place null_new null_old true = Ok null_moved) by (vm_compute; reflexivity). split; [exact H|]. intros told tr.
  pose proof null_distinct as D.
  assert (C : changeable_lists (ro_sabun null_old)) by (intros key l next E; apply DiffProofs.hget_in in E; destruct E as [E|[]]; discriminate E).
  destruct (C76_root in_place null_new null_old null_moved in_place_iterates D C H p told [(!"root", root_value)] !"a" 0 (PInt (Val 5)) Normal tr A eq_refl null_in) as (c & R & Ra & Ev & (_ & Mv)).
  specialize (Mv (or_introl eq_refl)). vm_compute in Mv. subst c. inversion Ra as [y Ay|y Ny]; subst; [destruct Ay as [E|E]; discriminate E|exact Ev].
Qed.
