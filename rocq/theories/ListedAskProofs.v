(** Proofs for C70: what is asked of a document after a list was changed. *)
From Verif Require Import Base CompactionModel CompactionSpec StringCompactionModel StringCompactionProofs LinkedModel LinkedSpec LinkedProofs DocModel DiffModel DiffWireModel DiffSpec DiffEditSpec DiffProofs DiffProofs2 DiffProofs3 DiffEditProofs
  ArchiveModel JsonModel JsonSpec ValidModel ValidSpec EmbedSpec EmbedProofs IntfModel IntfSpec IntfProofs
  SizeSpec SizeProofs SavedModel SavedProofs ReadModel AgainModel AgainSpec AgainProofs RunModel RunSpec RunAskProofs WroteSpec WroteProofs WroteStepProofs ListedSpec ListedProofs.

Definition shown iter (r t : root_obj) (a : loc) (key : name) (L' : list (Z * citem)) (d : def) (X : Z -> Prop) : Prop :=
  (forall q, items_of a key q -> ask iter t q = Ok (Ids (Some (map fst L')))) /\
  (forall q, ~ items_of a key q -> (forall w x, way_of q = Some w -> X x -> ~ passes (a ++ [(key, x)]) w) -> ask iter t q = ask iter r q) /\
  (forall w x, place w = Some (a ++ [(key, x)]) -> visit iter t w = Ok (option_map (fun c => (c, d)) (lookup x L'))).

Lemma loc_dec (a b : loc) : {a = b} + {a <> b}.
Proof. apply list_eq_dec. intros [k i] [k' i']. destruct (list_eq_dec Z.eq_dec k k') as [->|N]; [|right; congruence]. destruct (Z.eq_dec i i') as [->|N]; [left; reflexivity|right; congruence]. Defined.
Lemma place_dec (o : option loc) a : {o = Some a} + {o <> Some a}.
Proof. destruct o as [b|]; [|right; discriminate]. destruct (loc_dec b a) as [->|N]; [left; reflexivity|right; congruence]. Defined.
Lemma strip_self a : strip a a = Some [].
Proof. apply strip_some. rewrite app_nil_r. reflexivity. Qed.
Lemma strip_longer a x : strip (a ++ [x]) a = None.
Proof. destruct x as [k i]. rewrite strip_last, strip_self. reflexivity. Qed.
Lemma strip_nil b a : strip b a = Some [] -> b = a.
Proof. intros E. apply strip_some in E. rewrite app_nil_r in E. congruence. Qed.
Lemma passes_short b : forall w a, place w = Some a -> passes b w -> (length b <= length a)%nat.
Proof.
  induction w as [tb id|l i|l id|w IH k i|w IH k id|w IH k|w IH k]; cbn [place passes]; intros a P H; try discriminate P.
  - apply Some_inj in P; subst a. rewrite <- H. reflexivity.
  - destruct (place w) as [a0|]; [|discriminate]. cbn [option_map] in *. apply Some_inj in P; subst a. destruct H as [H|H].
    + specialize (IH _ eq_refl H). rewrite app_length. lia.
    + apply Some_inj in H. rewrite H. reflexivity.
Qed.
Lemma place_last w b k x : place w = Some (b ++ [(k, x)]) -> (b = [] /\ w = Entry k x) \/ exists w', w = Mil w' k x /\ place w' = Some b.
Proof.
  destruct w as [tb id|l i|l id|w k' i|w k' id|w k'|w k']; cbn [place]; intros P; try discriminate P.
  - left. apply Some_inj in P. destruct b as [|y b]; [injection P as <- <-; auto|]. exfalso. apply (f_equal (@length _)) in P. cbn in P. rewrite app_length in P. cbn in P. lia.
  - right. destruct (place w) as [a0|] eqn:E; [|discriminate]. cbn [option_map] in P. apply Some_inj in P. apply app_inj_tail in P as [-> P]. injection P as -> ->. exists w. auto.
Qed.
Lemma place_not_nil w : place w <> Some [].
Proof. destruct w as [tb id|l i|l id|w k' i|w k' id|w k'|w k']; cbn [place]; try discriminate. destruct (place w) as [b|]; [|discriminate]. cbn. destruct b; discriminate. Qed.

(* ------------------------------------------------------------------ *)
(** * A list of an item *)

Section Inner.
Variable iter : forall A, hmap A -> hmap A.
Variable r : root_obj.
Variable a : loc.
Variable key : name.
Variable s : spot.
Variable j : Z.
Variable d : def.
Variable u : bool.
Variable o : option (list (Z * citem)).
Variable L' : list (Z * citem).
Variable nx : Z.
Variable X : Z -> Prop.
Hypothesis At : item_at r a = Some s.
Hypothesis Dk : hget key (ld_members (undef (snd s))) = Some (j, DMil d u).
Hypothesis Was : spot_mil s key = Some (o, d).
Hypothesis Ru : o = None -> u = true.
Hypothesis Kept : forall id, ~ X id -> lookup id L' = lookup id (match o with Some l => l | None => [] end).
Let c : citem := CItem (hset key (VMil (Some (L', nx))) (ci_values (fst s))) (ci_refs (fst s)).
Let t : root_obj := put_root r a c.
Notation moved := (WroteProofs.moved a c).

Lemma new_mil k : spot_mil (c, snd s) k = if eqb_bytes k key then Some (Some L', d) else spot_mil s k.
Proof.
  unfold spot_mil at 1. cbn [fst snd]. unfold c. cbn [ci_values]. rewrite hget_hset. destruct (eqb_bytes k key) eqn:E.
  - apply eqb_bytes_eq in E; subst k. rewrite Dk, eqb_bytes_refl. reflexivity.
  - rewrite eqb_bytes_sym, E. reflexivity.
Qed.
Lemma new_cil k : spot_cil (c, snd s) k = spot_cil s k.
Proof.
  unfold spot_cil. cbn [fst snd]. unfold c. cbn [ci_values]. rewrite hget_hset. destruct (eqb_bytes key k) eqn:E; [apply eqb_bytes_eq in E; subst k; rewrite Dk|]; reflexivity.
Qed.
Lemma new_param k : get_param (c, snd s) k = get_param s k.
Proof.
  unfold get_param, spot_param. cbn [fst snd]. unfold c. cbn [ci_values]. rewrite hget_hset. destruct (eqb_bytes key k) eqn:E; [apply eqb_bytes_eq in E; subst k; rewrite Dk; reflexivity|reflexivity].
Qed.

Definition here (p : option loc) (k : name) : bool := match place_dec p a with left _ => eqb_bytes k key | right _ => false end.
Lemma moved_mil p s0 k : placed r p s0 ->
  spot_mil (moved p s0) k = if here p k then Some (Some L', d) else edited c (match p with Some b => match strip b a with Some a' => a' | None => [] end | None => [] end) k (spot_mil s0 k).
Proof.
  intros P. unfold here. unfold WroteProofs.moved. destruct p as [b|]; [|reflexivity]. destruct (strip b a) as [a'|] eqn:S.
  - destruct a' as [|(k', i) a'].
    + pose proof (strip_nil _ _ S) as ->. destruct (place_dec (Some a) a) as [_|N]; [|congruence]. cbn [put_item edited]. rewrite (placed_here r a s At _ _ _ P eq_refl S). apply new_mil.
    + destruct (place_dec (Some b) a) as [E|_]; [apply Some_inj in E; subst b; rewrite strip_self in S; discriminate|].
      destruct (below_cons _ _ _ _ _ (placed_below r a s At _ _ _ _ P eq_refl S)) as (j' & d' & u' & l & y & Hd & Hv & Hl & _).
      cbn [put_item edited]. rewrite Hv, Hl. unfold spot_mil. cbn [fst snd ci_values]. rewrite hget_hset. rewrite (eqb_bytes_sym k k'). destruct (eqb_bytes k' k) eqn:E; [|reflexivity].
      apply eqb_bytes_eq in E; subst k'. rewrite Hd, Hv. cbn [option_map]. rewrite Hl. reflexivity.
  - destruct (place_dec (Some b) a) as [E|_]; [apply Some_inj in E; subst b; rewrite strip_self in S; discriminate|reflexivity].
Qed.
Lemma here_iff p k : here p k = true <-> p = Some a /\ k = key.
Proof.
  unfold here. destruct (place_dec p a) as [E|N]; [|split; [discriminate|tauto]]. split; [intros H; apply eqb_bytes_eq in H; auto|]. intros (_ & ->). apply eqb_bytes_refl.
Qed.
Lemma placed_at s0 p : placed r p s0 -> p = Some a -> s0 = s.
Proof. intros P ->. exact (placed_here r a s At _ _ _ P eq_refl (strip_self a)). Qed.

Lemma kept_item id : ~ X id -> (l <- get_list u (Some (Some L', d)) ; Ok (item_of_list l id)) = (l <- get_list u (Some (o, d)) ; Ok (item_of_list l id)).
Proof.
  intros N. unfold get_list. cbn [need bind fst]. unfold item_of_list at 1. cbn [fst snd]. unfold mlist_item. rewrite Kept by exact N.
  destruct o as [l|]; [reflexivity|]. rewrite Ru by reflexivity. reflexivity.
Qed.

Lemma visit_list w : (forall x, X x -> ~ passes (a ++ [(key, x)]) w) -> visit iter t w = there a c (place w) (visit iter r w).
Proof.
  assert (Df : ro_default t = ro_default r) by apply put_default.
  assert (Rf : forall p s0, placed r p s0 -> ci_refs (fst (moved p s0)) = ci_refs (fst s0)) by (intros p s0 P; apply (moved_refs r a s c At p s0 P); left; reflexivity).
  induction w as [tb id|l i|l id|w IH k i|w IH k id|w IH k|w IH k]; intros D; cbn [passes] in D.
  - cbn [visit place]. unfold root_table. rewrite Df. destruct (hget tb (ro_default r)) as [[j' [p vt|d' rows o'|d' x|d' u']]|]; try reflexivity. cbn [need bind]. destruct (table_value (rows, d') id); reflexivity.
  - cbn [visit place]. unfold root_clist. rewrite Df. destruct (hget l (ro_default r)) as [[j' [p vt|d' rows o'|d' x|d' u']]|]; try reflexivity. cbn [need bind]. destruct (clist_value (x, d') i); reflexivity.
  - cbn [visit place]. rewrite Df. destruct (hget l (ro_default r)) as [[j' [p vt|d' rows o'|d' x|d' u']]|]; try reflexivity.
    unfold t. rewrite (put_mlist r a s c At), edited_item. unfold there. destruct (bind (get_list u' (root_mlist r l)) _) as [[s0|]| |]; try reflexivity. f_equal. f_equal.
    unfold WroteProofs.moved. change [(l, id)] with ([] ++ [(l, id)]). rewrite strip_last. cbn [strip]. destruct a as [|(k', i) a']; [reflexivity|]. destruct (_ && _); reflexivity.
  - cbn [visit place]. rewrite IH by exact D. destruct (visit iter r w) as [[s0|]| |] eqn:V; try reflexivity. cbn [there bind]. rewrite (moved_cil r a s c At new_cil) by (apply (visit_placed iter), V).
    destruct (spot_cil s0 k) as [l|]; [|reflexivity]. cbn [need bind]. destruct (clist_value l i); reflexivity.
  - cbn [visit place]. rewrite IH by (intros x Hx Q; apply (D x Hx); left; exact Q). destruct (visit iter r w) as [[s0|]| |] eqn:V; try reflexivity. cbn [there bind]. rewrite moved_def.
    pose proof (visit_placed iter r w s0 V) as P.
    destruct (hget k (ld_members (undef (snd s0)))) as [[j' [p vt|d'|d' u']]|] eqn:Hk; try reflexivity.
    rewrite moved_mil by exact P. destruct (here (place w) k) eqn:Hh.
    + apply here_iff in Hh as (Hp & ->). pose proof (placed_at s0 _ P Hp) as ->. rewrite Dk in Hk. injection Hk as <- <- <-. rewrite Was. rewrite kept_item.
      * unfold there. destruct (bind (get_list u (Some (o, d))) _) as [[s1|]| |]; try reflexivity. f_equal. f_equal. unfold WroteProofs.moved. rewrite Hp. cbn [option_map]. rewrite strip_longer. reflexivity.
      * intros Hx. apply (D id Hx). right. rewrite Hp. reflexivity.
    + rewrite edited_item. unfold there. destruct (bind (get_list u' (spot_mil s0 k)) _) as [[s1|]| |]; try reflexivity. f_equal. f_equal.
      unfold WroteProofs.moved. destruct (place w) as [b|]; [|reflexivity]. cbn [option_map]. rewrite strip_last. destruct (strip b a) as [[|(k', i) a']|]; try reflexivity. destruct (_ && _); reflexivity.
  - cbn [visit place]. rewrite IH by exact D. destruct (visit iter r w) as [[s0|]| |] eqn:V; try reflexivity. cbn [there bind].
    unfold t. rewrite (put_get_ref r a c s0); [destruct (get_ref r s0 k) as [[x| |]| |]; reflexivity|apply moved_def|]. apply Rf, (visit_placed iter), V.
  - cbn [visit place]. rewrite IH by exact D. destruct (visit iter r w) as [[s0|]| |] eqn:V; try reflexivity. cbn [there bind].
    unfold t. rewrite (put_get_enum iter r a c s0); [destruct (get_enum iter r s0) as [x| |]; try reflexivity; cbn [bind]; destruct (eqb_bytes (fst x) k); reflexivity|apply moved_def|]. apply Rf, (visit_placed iter), V.
Qed.
Lemma visit_here w : place w = Some a -> visit iter t w = Ok (Some (c, snd s)).
Proof.
  intros P. destruct (visit_to iter r w a [] s P) as (s0 & V & E); [rewrite app_nil_r; exact At|]. cbn [item_below] in E. apply Some_inj in E; subst s0.
  rewrite visit_list; [rewrite V; unfold there, WroteProofs.moved; rewrite P, strip_self; reflexivity|]. intros x _ Q. apply (passes_short _ w a P) in Q. rewrite app_length in Q. cbn in Q. lia.
Qed.

Lemma shown_inner : a <> [] -> shown iter r t a key L' d X.
Proof.
  intros Na. assert (Df : ro_default t = ro_default r) by apply put_default.
  assert (Rf : forall p s0, placed r p s0 -> ci_refs (fst (moved p s0)) = ci_refs (fst s0)) by (intros p s0 P; apply (moved_refs r a s c At p s0 P); left; reflexivity).
  split; [|split].
  - intros q Hq. destruct q as [k|k|w|w k|w k|w|w k]; cbn [items_of] in Hq; try contradiction; destruct Hq as (Hp & ->); [contradiction|].
    cbn [ask]. unfold at_item. rewrite visit_here by exact Hp. cbn [bind snd]. rewrite Dk, new_mil, eqb_bytes_refl. reflexivity.
  - intros q Nq D.
    assert (V : forall w f, way_of q = Some w -> (forall s0, visit iter r w = Ok (Some s0) -> f (moved (place w) s0) = f s0) -> at_item iter t w f = at_item iter r w f).
    { intros w f Hw F. unfold at_item. rewrite visit_list by (intros x; apply D, Hw). destruct (visit iter r w) as [[s0|]| |] eqn:E; try reflexivity. cbn [there bind]. apply F. reflexivity. }
    destruct q as [k|k|w|w k|w k|w|w k]; cbn [ask]; cbn [items_of] in Nq.
    + unfold get_root_param. rewrite Df. destruct (hget k (ro_default r)) as [[j' [p vt|d' rows o'|d' x|d' u']]|]; try reflexivity. unfold t. rewrite (put_root_param r a s c At). reflexivity.
    + rewrite Df. destruct (hget k (ro_default r)) as [[j' [p vt|d' rows o'|d' x|d' u']]|]; try reflexivity. unfold t. rewrite (put_mlist r a s c At). apply edited_ids.
    + apply V; reflexivity.
    + apply V; [reflexivity|]. intros s0 E. pose proof (visit_placed iter r w s0 E) as P. f_equal. destruct (place_dec (place w) a) as [Hp|Hp].
      * rewrite (placed_at s0 _ P Hp) in *. unfold WroteProofs.moved. rewrite Hp, strip_self. cbn [put_item]. apply new_param.
      * unfold get_param. rewrite moved_def. destruct (hget k (ld_members (undef (snd s0)))) as [[j' [p vt|d'|d' u']]|] eqn:Hd; try reflexivity.
        unfold spot_param. rewrite moved_def. rewrite (moved_value r a s c At (place w) s0 k P); [reflexivity| |exact Hp]. intros d' u' j''. rewrite Hd. discriminate.
    + apply V; [reflexivity|]. intros s0 E. f_equal. unfold get_ref_id, spot_ref_id. rewrite moved_def, Rf by (apply (visit_placed iter), E). reflexivity.
    + apply V; [reflexivity|]. intros s0 E. f_equal. unfold get_enum_ids, spot_enum. rewrite moved_def, Rf by (apply (visit_placed iter), E). reflexivity.
    + apply V; [reflexivity|]. intros s0 E. rewrite moved_def. destruct (hget k (ld_members (undef (snd s0)))) as [[j' [p vt|d'|d' u']]|]; try reflexivity.
      rewrite moved_mil by (apply (visit_placed iter), E). destruct (here (place w) k) eqn:Hh; [apply here_iff in Hh; contradiction|]. apply edited_ids.
  - intros w x Hw. apply place_last in Hw as [(-> & _)|(w' & -> & Hp)]; [contradiction|]. cbn [visit]. rewrite visit_here by exact Hp. cbn [bind snd]. rewrite Dk, new_mil, eqb_bytes_refl. reflexivity.
Qed.
End Inner.

(* ------------------------------------------------------------------ *)
(** * A list of the root *)

Section Root.
Variable iter : forall A, hmap A -> hmap A.
Variable r t : root_obj.
Variable key : name.
Variable j : Z.
Variable d : def.
Variable u : bool.
Variable o : option (list (Z * citem) * Z).
Variable L' : list (Z * citem).
Variable nx : Z.
Variable X : Z -> Prop.
Hypothesis Dk : hget key (ro_default r) = Some (j, WMList d u).
Hypothesis Was : hget key (ro_sabun r) = Some (DocModel.RMut o).
Hypothesis Ru : o = None -> u = true.
Hypothesis Kept : forall id, ~ X id -> lookup id L' = lookup id (fst (now o)).
Hypothesis Df : ro_default t = ro_default r.
Hypothesis New : ro_sabun t = hset key (DocModel.RMut (Some (L', nx))) (ro_sabun r).

Lemma new_mlist k : root_mlist t k = if eqb_bytes k key then Some (Some L', d) else root_mlist r k.
Proof.
  unfold root_mlist at 1. rewrite Df, New, hget_hset. destruct (eqb_bytes k key) eqn:E.
  - apply eqb_bytes_eq in E; subst k. rewrite Dk, eqb_bytes_refl. reflexivity.
  - rewrite eqb_bytes_sym, E. reflexivity.
Qed.
Lemma old_mlist : root_mlist r key = Some (option_map fst o, d).
Proof. unfold root_mlist. rewrite Dk, Was. reflexivity. Qed.
Lemma visit_root w : (forall x, X x -> ~ passes [(key, x)] w) -> visit iter t w = visit iter r w.
Proof.
  assert (Rf : forall s k, get_ref t s k = get_ref r s k) by (intros s k; unfold get_ref, spot_ref, root_table; rewrite Df; reflexivity).
  assert (En : forall s, get_enum iter t s = get_enum iter r s) by (intros s; unfold get_enum, spot_ref, root_table; rewrite Df; reflexivity).
  induction w as [tb id|l i|l id|w IH k i|w IH k id|w IH k|w IH k]; intros D; cbn [passes] in D; cbn [visit].
  - unfold root_table. rewrite Df. reflexivity.
  - unfold root_clist. rewrite Df. reflexivity.
  - rewrite Df, new_mlist. destruct (eqb_bytes l key) eqn:E; [|reflexivity]. apply eqb_bytes_eq in E; subst l. rewrite Dk, old_mlist.
    unfold get_list. cbn [need bind fst]. unfold item_of_list at 1. cbn [fst snd]. unfold mlist_item. rewrite Kept by (intros Hx; exact (D id Hx eq_refl)).
    destruct o as [l|]; [reflexivity|]. cbn [now fst option_map]. rewrite Ru by reflexivity. reflexivity.
  - rewrite IH by exact D. reflexivity.
  - rewrite IH by (intros x Hx Q; apply (D x Hx); left; exact Q). reflexivity.
  - rewrite IH by exact D. destruct (visit iter r w) as [[s|]| |]; try reflexivity. cbn [bind]. rewrite Rf. reflexivity.
  - rewrite IH by exact D. destruct (visit iter r w) as [[s|]| |]; try reflexivity. cbn [bind]. rewrite En. reflexivity.
Qed.
Lemma shown_root : shown iter r t [] key L' d X.
Proof.
  split; [|split].
  - intros q Hq. destruct q as [k|k|w|w k|w k|w|w k]; cbn [items_of] in Hq; try contradiction; destruct Hq as (Hp & ->); [|destruct (place_not_nil w Hp)].
    cbn [ask]. rewrite Df, Dk, new_mlist, eqb_bytes_refl. reflexivity.
  - intros q Nq D. cbn [app] in D.
    assert (V : forall w f, way_of q = Some w -> at_item iter t w f = at_item iter r w f) by (intros w f Hw; unfold at_item; rewrite visit_root by (intros x; apply D, Hw); reflexivity).
    destruct q as [k|k|w|w k|w k|w|w k]; cbn [ask]; cbn [items_of] in Nq; try (apply V; reflexivity).
    + unfold get_root_param, root_obj_param. rewrite Df, New, hget_hset. destruct (eqb_bytes key k) eqn:E; [apply eqb_bytes_eq in E; subst k; rewrite Dk; reflexivity|reflexivity].
    + rewrite Df, new_mlist. destruct (eqb_bytes k key) eqn:E; [apply eqb_bytes_eq in E; exfalso; apply Nq; auto|reflexivity].
  - intros w x Hw. apply (place_last w []) in Hw as [(_ & ->)|(w' & _ & Hp)]; [|destruct (place_not_nil w' Hp)]. cbn [visit]. rewrite Df, Dk, new_mlist, eqb_bytes_refl. reflexivity.
Qed.
End Root.
