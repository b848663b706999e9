(** Proofs for C69. *)
From Verif Require Import Base CompactionModel CompactionSpec StringCompactionModel StringCompactionProofs LinkedModel LinkedSpec DocModel DiffModel DiffWireModel DiffSpec DiffEditSpec DiffProofs DiffProofs2 DiffProofs3 DiffEditProofs
  ArchiveModel JsonModel JsonSpec ValidModel ValidSpec EmbedSpec EmbedProofs IntfModel IntfSpec IntfProofs
  SizeSpec SizeProofs SavedModel SavedProofs ReadModel AgainModel AgainSpec AgainProofs CodeSpec RunModel RunSpec RunAskProofs WroteSpec.

Lemma eqb_bytes_sym a b : eqb_bytes a b = eqb_bytes b a.
Proof.
  destruct (eqb_bytes a b) eqn:E; [apply eqb_bytes_eq in E; subst; symmetry; apply eqb_bytes_refl|].
  destruct (eqb_bytes b a) eqn:F; [|reflexivity]. apply eqb_bytes_eq in F. subst. rewrite eqb_bytes_refl in E. discriminate.
Qed.

(* ------------------------------------------------------------------ *)
(** * Another item at a place *)

Fixpoint put_item (it : citem) (a : loc) (c : citem) : citem :=
  match a with
  | [] => c
  | (key, id) :: a =>
      match hget key (ci_values it) with
      | Some (VMil (Some l)) =>
          match lookup id (fst l) with
          | Some x => CItem (hset key (VMil (Some (assign id (put_item x a c) (fst l), snd l))) (ci_values it)) (ci_refs it)
          | None => it
          end
      | _ => it
      end
  end.
Definition put_root (r : root_obj) (a : loc) (c : citem) : root_obj :=
  match a with
  | [] => r
  | (key, id) :: a =>
      match hget key (ro_sabun r) with
      | Some (DocModel.RMut (Some l)) =>
          match lookup id (fst l) with
          | Some x => RootObj (ro_default r) (hset key (DocModel.RMut (Some (assign id (put_item x a c) (fst l), snd l))) (ro_sabun r)) (ro_old r) (ro_meta r)
          | None => r
          end
      | _ => r
      end
  end.

(** the rest of [a] after [b] *)
Fixpoint strip (b a : loc) : option loc :=
  match b, a with
  | [], _ => Some a
  | x :: b, y :: a => if eqb_bytes (fst x) (fst y) && (snd x =? snd y) then strip b a else None
  | _ :: _, [] => None
  end.
Lemma strip_some b a a' : strip b a = Some a' <-> a = b ++ a'.
Proof.
  revert a. induction b as [|[k i] b IH]; intros a; cbn [strip app]; [split; [intros H; apply Some_inj in H; exact H|intros ->; reflexivity]|].
  destruct a as [|[k' i'] a]; [split; discriminate|]. cbn [fst snd]. destruct (eqb_bytes k k') eqn:E; cbn [andb].
  - apply eqb_bytes_eq in E; subst k'. destruct (Z.eqb_spec i i') as [->|N]; [rewrite IH; split; [intros ->; reflexivity|intros H; injection H as H; exact H]|split; [discriminate|intros H; injection H; congruence]].
  - split; [discriminate|]. intros H. injection H as -> _ _. rewrite eqb_bytes_refl in E. discriminate.
Qed.
Lemma strip_last b a k i : strip (b ++ [(k, i)]) a = match strip b a with Some ((k', i') :: a') => if eqb_bytes k k' && (i =? i') then Some a' else None | _ => None end.
Proof.
  revert a. induction b as [|[k0 i0] b IH]; intros a; cbn [strip app]; [destruct a as [|[k' i'] a]; reflexivity|].
  destruct a as [|[k' i'] a]; [reflexivity|]. destruct (_ && _); [apply IH|reflexivity].
Qed.

Lemma put_keeps_refs it a c : a <> [] -> ci_refs (put_item it a c) = ci_refs it.
Proof.
  destruct a as [|[k i] a]; intros N; [contradiction|]. cbn [put_item]. destruct (hget k (ci_values it)) as [[p|l|[l|]]|]; try reflexivity. destruct (lookup i (fst l)); reflexivity.
Qed.
Lemma put_default r a c : ro_default (put_root r a c) = ro_default r.
Proof. destruct a as [|[k i] a]; [reflexivity|]. cbn [put_root]. destruct (hget k (ro_sabun r)) as [[p|[l|]]|]; try reflexivity. destruct (lookup i (fst l)); reflexivity. Qed.

(** the first step towards an item *)
Lemma below_cons s k i a x : item_below s ((k, i) :: a) = Some x -> exists j d u l y, hget k (ld_members (undef (snd s))) = Some (j, DMil d u) /\
  hget k (ci_values (fst s)) = Some (VMil (Some l)) /\ lookup i (fst l) = Some y /\ item_below (y, d) a = Some x.
Proof.
  cbn [item_below]. unfold spot_mil. destruct (hget k (ld_members (undef (snd s)))) as [[j [p vt|d|d u]]|]; try discriminate.
  destruct (hget k (ci_values (fst s))) as [[p|l|[l|]]|]; cbn [option_map]; try discriminate.
  unfold mlist_item. destruct (lookup i (fst l)) as [y|] eqn:E; [|discriminate]. cbn [option_map]. intros H. exists j, d, u, l, y. auto.
Qed.
Lemma at_cons r k i a x : item_at r ((k, i) :: a) = Some x -> exists j d u l y, hget k (ro_default r) = Some (j, WMList d u) /\
  hget k (ro_sabun r) = Some (DocModel.RMut (Some l)) /\ lookup i (fst l) = Some y /\ item_below (y, d) a = Some x.
Proof.
  cbn [item_at]. unfold root_mlist. destruct (hget k (ro_default r)) as [[j [p vt|d rows o|d l|d u]]|]; try discriminate.
  destruct (hget k (ro_sabun r)) as [[p|[l|]]|]; cbn [option_map]; try discriminate.
  unfold mlist_item. destruct (lookup i (fst l)) as [y|] eqn:E; [|discriminate]. cbn [option_map]. intros H. exists j, d, u, l, y. auto.
Qed.

Lemma lookup_assign_at {A} id (x v : A) l i : lookup id l = Some x -> lookup i (assign id v l) = if i =? id then Some v else lookup i l.
Proof. intros E. rewrite lookup_assign. unfold has. rewrite E, andb_true_r. reflexivity. Qed.
Lemma assign_ids {A} id (v : A) l : map fst (assign id v l) = map fst l.
Proof. unfold assign. rewrite map_map. apply map_ext. intros e. destruct (fst e =? id); reflexivity. Qed.

Section Put.
Variable iter : forall A, hmap A -> hmap A.
Variable r : root_obj.
Variable a : loc.
Variable s : spot.
Variable c : citem.
Hypothesis At : item_at r a = Some s.
(** the lists of the item are as before *)
Hypothesis Mil : forall k, spot_mil (c, snd s) k = spot_mil s k.
Hypothesis Cil : forall k, spot_cil (c, snd s) k = spot_cil s k.
Let t : root_obj := put_root r a c.

(** what is found where the item [s0] was found before *)
Definition moved (o : option loc) (s0 : spot) : spot :=
  match o with
  | Some b => match strip b a with Some a' => (put_item (fst s0) a' c, snd s0) | None => s0 end
  | None => s0
  end.

Lemma moved_def o s0 : snd (moved o s0) = snd s0.
Proof. unfold moved. destruct o as [b|]; [|reflexivity]. destruct (strip b a); reflexivity. Qed.

(** at a place on the way to [a], or at [a] *)
Definition placed (o : option loc) (s0 : spot) : Prop := forall b, o = Some b -> b <> [] /\ item_at r b = Some s0.

Lemma placed_below o s0 b a' : placed o s0 -> o = Some b -> strip b a = Some a' -> item_below s0 a' = Some s.
Proof. intros P -> S. apply strip_some in S. destruct (P b eq_refl) as (N & E). rewrite S in At. rewrite item_at_app in At by exact N. rewrite E in At. exact At. Qed.
Lemma placed_here o s0 b : placed o s0 -> o = Some b -> strip b a = Some [] -> s0 = s.
Proof. intros P B S. pose proof (placed_below _ _ _ _ P B S) as X. cbn [item_below] in X. apply Some_inj in X. exact X. Qed.

Lemma moved_refs o s0 : placed o s0 -> ci_refs c = ci_refs (fst s) \/ o <> Some a -> ci_refs (fst (moved o s0)) = ci_refs (fst s0).
Proof.
  intros P D. unfold moved. destruct o as [b|]; [|reflexivity]. destruct (strip b a) as [a'|] eqn:S; [|reflexivity]. cbn [fst].
  destruct a' as [|x a']; [|apply put_keeps_refs; discriminate]. cbn [put_item]. destruct D as [D|D].
  - rewrite D. rewrite (placed_here _ _ _ P eq_refl S). reflexivity.
  - exfalso. apply D. apply strip_some in S. rewrite app_nil_r in S. subst b. reflexivity.
Qed.
Lemma moved_cil o s0 k : placed o s0 -> spot_cil (moved o s0) k = spot_cil s0 k.
Proof.
  intros P. unfold moved. destruct o as [b|]; [|reflexivity]. destruct (strip b a) as [a'|] eqn:S; [|reflexivity].
  destruct a' as [|(k', i) a'].
  - cbn [put_item]. rewrite (placed_here _ _ _ P eq_refl S). apply Cil.
  - destruct (below_cons _ _ _ _ _ (placed_below _ _ _ _ P eq_refl S)) as (j & d & u & l & y & Hd & Hv & Hl & _).
    cbn [put_item]. rewrite Hv, Hl. unfold spot_cil. cbn [fst snd ci_values]. destruct (hget k (ld_members (undef (snd s0)))) as [[j' [p vt|d'|d' u']]|] eqn:Hk; try reflexivity.
    rewrite hget_hset. rewrite eqb_bytes_neq by congruence. reflexivity.
Qed.
(** the lists of it *)
Definition edited (a' : loc) (k : name) (o : option (option (list (Z * citem)) * def)) : option (option (list (Z * citem)) * def) :=
  match a' with
  | (k', i) :: a' =>
      if eqb_bytes k k' then
        match o with
        | Some (Some items, d) => match lookup i items with Some x => Some (Some (assign i (put_item x a' c) items), d) | None => o end
        | _ => o
        end
      else o
  | [] => o
  end.
Lemma edited_item a' k o u id : (l <- get_list u (edited a' k o) ; Ok (item_of_list l id)) =
  match (l <- get_list u o ; Ok (item_of_list l id)) with
  | Ok (Some s0) => Ok (Some (match a' with (k', i) :: a' => if eqb_bytes k k' && (id =? i) then (put_item (fst s0) a' c, snd s0) else s0 | [] => s0 end))
  | x => x
  end.
Proof.
  unfold edited. destruct a' as [|(k', i) a'].
  - destruct (bind (get_list u o) _) as [[s0|]| |]; reflexivity.
  - destruct (eqb_bytes k k'); cbn [andb]; [|destruct (bind (get_list u o) _) as [[s0|]| |]; reflexivity].
    destruct o as [[[items|] d]|]; unfold get_list; cbn [need bind fst]; [|destruct u; reflexivity|reflexivity].
    destruct (lookup i items) as [x|] eqn:X.
    + cbn [need bind fst]. unfold item_of_list, mlist_item. cbn [fst snd]. rewrite (lookup_assign_at i x) by exact X. destruct (Z.eqb_spec id i) as [->|N]; [rewrite X; reflexivity|]. destruct (lookup id items); reflexivity.
    + cbn [need bind fst]. unfold item_of_list, mlist_item. cbn [fst snd]. destruct (Z.eqb_spec id i) as [->|N]; [rewrite X; reflexivity|]. destruct (lookup id items); reflexivity.
Qed.
Lemma edited_ids a' k o u : (l <- get_list u (edited a' k o) ; Ok (ids_of l)) = (l <- get_list u o ; Ok (ids_of l)).
Proof.
  unfold edited. destruct a' as [|(k', i) a']; [reflexivity|]. destruct (eqb_bytes k k'); [|reflexivity]. destruct o as [[[items|] d]|]; try reflexivity.
  destruct (lookup i items) as [x|]; [|reflexivity]. unfold get_list, ids_of. cbn [need bind fst option_map]. rewrite assign_ids. reflexivity.
Qed.
Lemma moved_mil o s0 k : placed o s0 ->
  spot_mil (moved o s0) k = edited (match o with Some b => match strip b a with Some a' => a' | None => [] end | None => [] end) k (spot_mil s0 k).
Proof.
  intros P. unfold moved. destruct o as [b|]; [|reflexivity]. destruct (strip b a) as [a'|] eqn:S; [|reflexivity].
  destruct a' as [|(k', i) a'].
  - cbn [put_item edited]. rewrite (placed_here _ _ _ P eq_refl S). apply Mil.
  - destruct (below_cons _ _ _ _ _ (placed_below _ _ _ _ P eq_refl S)) as (j & d & u & l & y & Hd & Hv & Hl & _).
    cbn [put_item edited]. rewrite Hv, Hl. unfold spot_mil. cbn [fst snd ci_values]. rewrite hget_hset. rewrite (eqb_bytes_sym k k'). destruct (eqb_bytes k' k) eqn:E; [|reflexivity].
    apply eqb_bytes_eq in E; subst k'. rewrite Hd, Hv. cbn [option_map]. rewrite Hl. reflexivity.
Qed.
Lemma moved_value o s0 k : placed o s0 -> (forall d u j, hget k (ld_members (undef (snd s0))) <> Some (j, DMil d u)) -> o <> Some a ->
  hget k (ci_values (fst (moved o s0))) = hget k (ci_values (fst s0)).
Proof.
  intros P M N. unfold moved. destruct o as [b|]; [|reflexivity]. destruct (strip b a) as [a'|] eqn:S; [|reflexivity].
  destruct a' as [|(k', i) a']; [exfalso; apply N; apply strip_some in S; rewrite app_nil_r in S; subst b; reflexivity|].
  destruct (below_cons _ _ _ _ _ (placed_below _ _ _ _ P eq_refl S)) as (j & d & u & l & y & Hd & Hv & Hl & _).
  cbn [put_item fst]. rewrite Hv, Hl. cbn [ci_values]. rewrite hget_hset. rewrite eqb_bytes_neq; [reflexivity|]. intros ->. exact (M _ _ _ Hd).
Qed.

(** the lists of the root *)
Lemma put_mlist k : root_mlist t k = edited a k (root_mlist r k).
Proof.
  unfold t. destruct a as [|(k', i) a'] eqn:Ea; [reflexivity|]. destruct (at_cons _ _ _ _ _ At) as (j & d & u & l & y & Hd & Hv & Hl & _).
  cbn [put_root edited]. rewrite Hv, Hl. unfold root_mlist. cbn [ro_default ro_sabun]. rewrite hget_hset. rewrite (eqb_bytes_sym k k'). destruct (eqb_bytes k' k) eqn:E; [|reflexivity].
  apply eqb_bytes_eq in E; subst k'. rewrite Hd, Hv. cbn [option_map]. rewrite Hl. reflexivity.
Qed.
Lemma put_root_param k : root_obj_param t k = root_obj_param r k.
Proof.
  unfold t. destruct a as [|(k', i) a'] eqn:Ea; [reflexivity|]. destruct (at_cons _ _ _ _ _ At) as (j & d & u & l & y & Hd & Hv & Hl & _).
  cbn [put_root]. rewrite Hv, Hl. unfold root_obj_param. cbn [ro_default ro_sabun]. rewrite hget_hset. destruct (eqb_bytes k' k) eqn:E; [|reflexivity].
  apply eqb_bytes_eq in E; subst k'. rewrite Hv. reflexivity.
Qed.

(** what the ways lead to is at their places *)
Lemma get_found u o id s0 : (l <- get_list u o ; Ok (item_of_list l id)) = Ok (Some s0) -> exists items d, o = Some (Some items, d) /\ mlist_item items d id = Some s0.
Proof.
  unfold get_list, need. destruct o as [[[items|] d]|]; cbn [bind fst]; [|destruct u; cbn [bind]; discriminate|discriminate]. unfold item_of_list. cbn [fst snd]. intros E. apply Ok_inj in E. exists items, d. auto.
Qed.
Lemma visit_placed w : forall s0, visit iter r w = Ok (Some s0) -> placed (place w) s0.
Proof.
  induction w as [tb id|l i|l id|w IH k i|w IH k id|w IH k|w IH k]; intros s0 E b B; cbn [place] in B; try discriminate B.
  - apply Some_inj in B; subst b. split; [discriminate|]. cbn [visit] in E. cbn [item_at]. destruct (hget l (ro_default r)) as [[j [p vt|d rows o|d x|d u]]|]; try discriminate.
    apply get_found in E as (items & d' & -> & ->). reflexivity.
  - destruct (place w) as [b0|]; [|discriminate]. cbn [option_map] in B. apply Some_inj in B; subst b. cbn [visit] in E. apply bind_ok in E as ([s1|] & E0 & E); [|discriminate].
    destruct (IH _ E0 b0 eq_refl) as (N & P). split; [destruct b0; discriminate|]. rewrite item_at_app by exact N. rewrite P. cbn [item_below].
    destruct (hget k (ld_members (undef (snd s1)))) as [[j [p vt|d|d u]]|]; try discriminate.
    apply get_found in E as (items & d' & -> & ->). reflexivity.
Qed.

Lemma put_get_ref s0 s1 k : snd s1 = snd s0 -> ci_refs (fst s1) = ci_refs (fst s0) -> get_ref t s1 k = get_ref r s0 k.
Proof.
  intros D R. unfold get_ref. rewrite D. destruct (ld_enum _); [reflexivity|]. destruct (hget k (ld_refs _)) as [[j [q vt]]|]; [|reflexivity].
  unfold spot_ref, spot_ref_id, root_table. rewrite D, R. unfold t. rewrite put_default. reflexivity.
Qed.
Lemma put_get_enum s0 s1 : snd s1 = snd s0 -> ci_refs (fst s1) = ci_refs (fst s0) -> get_enum iter t s1 = get_enum iter r s0.
Proof.
  intros D R. unfold get_enum, spot_enum. rewrite D, R. destruct (ld_enum _); [|reflexivity]. destruct (flat_map _ _) as [|e es]; [reflexivity|]. cbn [need bind].
  unfold spot_ref, spot_ref_id, root_table. rewrite D, R. unfold t. rewrite put_default. reflexivity.
Qed.

Definition there (o : option loc) (x : res (option spot)) : res (option spot) :=
  match x with Ok (Some s0) => Ok (Some (moved o s0)) | x => x end.

Lemma visit_put w : ci_refs c = ci_refs (fst s) \/ avoids a w -> visit iter t w = there (place w) (visit iter r w).
Proof.
  assert (Df : ro_default t = ro_default r) by apply put_default.
  induction w as [tb id|l i|l id|w IH k i|w IH k id|w IH k|w IH k]; intros D.
  - cbn [visit place]. unfold root_table. rewrite Df. destruct (hget tb (ro_default r)) as [[j [p vt|d rows o|d x|d u]]|]; try reflexivity. cbn [need bind]. destruct (table_value (rows, d) id); reflexivity.
  - cbn [visit place]. unfold root_clist. rewrite Df. destruct (hget l (ro_default r)) as [[j [p vt|d rows o|d x|d u]]|]; try reflexivity. cbn [need bind]. destruct (clist_value (x, d) i); reflexivity.
  - cbn [visit place]. rewrite Df. destruct (hget l (ro_default r)) as [[j [p vt|d rows o|d x|d u]]|]; try reflexivity.
    rewrite put_mlist, edited_item. unfold there. destruct (bind (get_list u (root_mlist r l)) _) as [[s0|]| |]; try reflexivity. f_equal. f_equal.
    unfold moved. change [(l, id)] with ([] ++ [(l, id)]). rewrite strip_last. cbn [strip]. destruct a as [|(k', i) a']; [reflexivity|]. destruct (_ && _); reflexivity.
  - cbn [visit place]. rewrite IH by exact D. destruct (visit iter r w) as [[s0|]| |] eqn:V; try reflexivity. cbn [there bind]. rewrite moved_cil by (apply visit_placed, V).
    destruct (spot_cil s0 k) as [l|]; [|reflexivity]. cbn [need bind]. destruct (clist_value l i); reflexivity.
  - cbn [visit place]. rewrite IH by exact D. destruct (visit iter r w) as [[s0|]| |] eqn:V; try reflexivity. cbn [there bind]. rewrite moved_def.
    destruct (hget k (ld_members (undef (snd s0)))) as [[j [p vt|d|d u]]|]; try reflexivity.
    rewrite moved_mil by (apply visit_placed, V). rewrite edited_item. unfold there. destruct (bind (get_list u (spot_mil s0 k)) _) as [[s1|]| |]; try reflexivity. f_equal. f_equal.
    unfold moved. destruct (place w) as [b|]; [|reflexivity]. cbn [option_map]. rewrite strip_last. destruct (strip b a) as [[|(k', i) a']|]; try reflexivity. destruct (_ && _); reflexivity.
  - cbn [visit place]. cbn [avoids] in D. rewrite IH by tauto. destruct (visit iter r w) as [[s0|]| |] eqn:V; try reflexivity. cbn [there bind].
    rewrite (put_get_ref s0); [destruct (get_ref r s0 k) as [[x| |]| |]; reflexivity|apply moved_def|]. apply moved_refs; [apply visit_placed, V|tauto].
  - cbn [visit place]. cbn [avoids] in D. rewrite IH by tauto. destruct (visit iter r w) as [[s0|]| |] eqn:V; try reflexivity. cbn [there bind].
    rewrite (put_get_enum s0); [destruct (get_enum iter r s0) as [x| |]; try reflexivity; cbn [bind]; destruct (eqb_bytes (fst x) k); reflexivity|apply moved_def|]. apply moved_refs; [apply visit_placed, V|tauto].
Qed.

(** a way that ends at [a] leads to the new item *)
Lemma below_get u s0 k i b x : item_below s0 ((k, i) :: b) = Some x -> exists s1, (l <- get_list u (spot_mil s0 k) ; Ok (item_of_list l i)) = Ok (Some s1) /\ item_below s1 b = Some x.
Proof.
  cbn [item_below]. destruct (spot_mil s0 k) as [[[items|] d]|]; try discriminate. destruct (mlist_item items d i) as [s1|] eqn:E; [|discriminate]. intros H. exists s1. split; [|exact H].
  unfold get_list. cbn [need bind fst]. unfold item_of_list. cbn [fst snd]. rewrite E. reflexivity.
Qed.
Lemma visit_to w : forall b b' x, place w = Some b -> item_at r (b ++ b') = Some x -> exists s0, visit iter r w = Ok (Some s0) /\ item_below s0 b' = Some x.
Proof.
  induction w as [tb id|l i|l id|w IH k i|w IH k id|w IH k|w IH k]; intros b b' x B E; cbn [place] in B; try discriminate B.
  - apply Some_inj in B; subst b. cbn [app item_at] in E. cbn [visit]. unfold root_mlist in E. destruct (hget l (ro_default r)) as [[j [p vt|d rows o|d y|d u]]|] eqn:Hd; try discriminate.
    destruct (hget l (ro_sabun r)) as [[p|o]|] eqn:Hs; try discriminate. unfold root_mlist. rewrite Hd, Hs. destruct o as [m|]; cbn [option_map] in *; [|discriminate]. destruct (mlist_item (fst m) d id) as [s1|] eqn:M; [|discriminate].
    exists s1. split; [|exact E]. unfold get_list. cbn [need bind fst]. unfold item_of_list. cbn [fst snd]. rewrite M. reflexivity.
  - destruct (place w) as [b0|]; [|discriminate]. cbn [option_map] in B. apply Some_inj in B; subst b. rewrite <- app_assoc in E. destruct (IH b0 _ x eq_refl E) as (s0 & V & F).
    cbn [visit]. rewrite V. cbn [bind]. cbn [app] in F. destruct (below_cons _ _ _ _ _ F) as (j & d & u & l & y & Hd & _). rewrite Hd.
    exact (below_get u _ _ _ _ _ F).
Qed.
Lemma visit_at w : place w = Some a -> visit iter r w = Ok (Some s) /\ visit iter t w = Ok (Some (c, snd s)).
Proof.
  intros P. destruct (visit_to w a [] s P) as (s0 & V & E); [rewrite app_nil_r; exact At|]. cbn [item_below] in E. apply Some_inj in E; subst s0. split; [exact V|].
  assert (W : avoids a w).
  { clear -P. assert (X : forall w b, place w = Some b -> avoids a w). { induction w0; cbn [place avoids]; intros b E; try discriminate E; try exact Logic.I. destruct (place w0) as [b0|]; [|discriminate]. eapply IHw0. reflexivity. } eapply X, P. }
  rewrite visit_put by (right; exact W). rewrite V. unfold there, moved. rewrite P. assert (S : strip a a = Some []) by (apply strip_some; rewrite app_nil_r; reflexivity). rewrite S. reflexivity.
Qed.

(** the answers *)
Lemma put_answers q : (forall w, way_of q = Some w -> ci_refs c = ci_refs (fst s) \/ avoids a w) ->
  (forall w key, q = Param w key -> place w = Some a -> get_param (c, snd s) key = get_param s key) ->
  (forall w key, q = RefId w key -> place w = Some a -> get_ref_id (c, snd s) key = get_ref_id s key) ->
  (forall w, q = EnumIds w -> place w = Some a -> get_enum_ids iter (c, snd s) = get_enum_ids iter s) ->
  ask iter t q = ask iter r q.
Proof.
  assert (Df : ro_default t = ro_default r) by apply put_default.
  assert (V : forall w f, ci_refs c = ci_refs (fst s) \/ avoids a w -> (forall s0, visit iter r w = Ok (Some s0) -> f (moved (place w) s0) = f s0) -> at_item iter t w f = at_item iter r w f).
  { intros w f D F. unfold at_item. rewrite visit_put by exact D. destruct (visit iter r w) as [[s0|]| |] eqn:E; try reflexivity. cbn [there bind]. apply F. reflexivity. }
  assert (H : forall w s0, visit iter r w = Ok (Some s0) -> place w = Some a -> s0 = s /\ moved (place w) s0 = (c, snd s)).
  { intros w s0 E P. destruct (visit_at w P) as (E' & _). rewrite E in E'. apply Ok_inj in E'. apply Some_inj in E'. subst s0. split; [reflexivity|]. unfold moved. rewrite P.
    assert (S : strip a a = Some []) by (apply strip_some; rewrite app_nil_r; reflexivity). rewrite S. reflexivity. }
  assert (O : forall o : option loc, o = Some a \/ o <> Some a).
  { intros [b|]; [|right; discriminate]. destruct (strip b a) as [[|x y]|] eqn:S.
    - left. apply strip_some in S. rewrite app_nil_r in S. subst b. reflexivity.
    - right. intros X. apply Some_inj in X. apply strip_some in S. subst b. apply (f_equal (@length _)) in S. rewrite app_length in S. cbn in S. lia.
    - right. intros X. apply Some_inj in X. subst b. assert (Y : strip a a = Some []) by (apply strip_some; rewrite app_nil_r; reflexivity). congruence. }
  destruct q as [key|key|w|w key|w key|w|w key]; intros D Hp Hr He; cbn [ask].
  - unfold get_root_param. rewrite Df. destruct (hget key (ro_default r)) as [[j [p vt|d rows o|d x|d u]]|]; try reflexivity. rewrite put_root_param. reflexivity.
  - rewrite Df. destruct (hget key (ro_default r)) as [[j [p vt|d rows o|d x|d u]]|]; try reflexivity. rewrite put_mlist. apply edited_ids.
  - apply V; [apply D; reflexivity|reflexivity].
  - apply V; [apply D; reflexivity|]. intros s0 E. destruct (O (place w)) as [P|P].
    + destruct (H w s0 E P) as (-> & ->). rewrite (Hp w key eq_refl P). reflexivity.
    + f_equal. unfold get_param. rewrite moved_def. destruct (hget key (ld_members (undef (snd s0)))) as [[j [p vt|d|d u]]|] eqn:Hd; try reflexivity.
      unfold spot_param. rewrite moved_def. rewrite (moved_value (place w) s0 key); [reflexivity|apply visit_placed, E| |exact P]. intros d u j'. rewrite Hd. discriminate.
  - apply V; [apply D; reflexivity|]. intros s0 E. destruct (O (place w)) as [P|P].
    + destruct (H w s0 E P) as (-> & ->). rewrite (Hr w key eq_refl P). reflexivity.
    + f_equal. unfold get_ref_id, spot_ref_id. rewrite moved_def. rewrite moved_refs; [reflexivity|apply visit_placed, E|right; exact P].
  - apply V; [apply D; reflexivity|]. intros s0 E. destruct (O (place w)) as [P|P].
    + destruct (H w s0 E P) as (-> & ->). rewrite (He w eq_refl P). reflexivity.
    + f_equal. unfold get_enum_ids, spot_enum. rewrite moved_def. rewrite moved_refs; [reflexivity|apply visit_placed, E|right; exact P].
  - apply V; [apply D; reflexivity|]. intros s0 E. rewrite moved_def. destruct (hget key (ld_members (undef (snd s0)))) as [[j [p vt|d|d u]]|]; try reflexivity.
    rewrite moved_mil by (apply visit_placed, E). apply edited_ids.
Qed.
End Put.

(** following what was set *)
Lemma instead_visit iter t (these : way -> Prop) row : (forall w, these w -> visit iter t w = visit iter t row) -> forall w w', instead these row w w' -> visit iter t w = visit iter t w'.
Proof. intros H w w' I. induction I as [w X|w w' k i X IH|w w' k id X IH|w w' k X IH|w w' k X IH]; [apply H, X|..]; cbn [visit]; rewrite IH; reflexivity. Qed.
Lemma instead_ask iter t (these : way -> Prop) row : (forall w, these w -> visit iter t w = visit iter t row) -> forall q q', asked_instead these row q q' -> ask iter t q = ask iter t q'.
Proof. intros H q q' I. destruct I as [w w' X|w w' k X|w w' k X|w w' X|w w' k X]; cbn [ask]; unfold at_item; rewrite (instead_visit _ _ _ _ H _ _ X); reflexivity. Qed.
(** ways that begin with a row of a table do not depend on what is in lists that can change *)
Lemma instead_row these tb id w w' : instead these (Row tb id) w w' -> place w' = None /\ forall a, avoids a w'.
Proof.
  intros I. induction I as [w X|w w' k i X [IH IA]|w w' k j X [IH IA]|w w' k X [IH IA]|w w' k X [IH IA]]; cbn [place avoids]; (split; [try rewrite IH; reflexivity|intros a]); auto.
  all: split; [apply IA|rewrite IH; discriminate].
Qed.
Lemma asked_row these tb id q q' : asked_instead these (Row tb id) q q' -> exists w, way_of q' = Some w /\ place w = None /\ forall a, avoids a w.
Proof. intros I. destruct I as [w w' X|w w' k X|w w' k X|w w' X|w w' k X]; exists w'; (split; [reflexivity|exact (instead_row _ _ _ _ _ X)]). Qed.

(** another value of a member of the root *)
Lemma root_answers iter r t key i p vt : ro_default t = ro_default r -> hget key (ro_default r) = Some (i, WParam p vt) -> (forall k, k <> key -> hget k (ro_sabun t) = hget k (ro_sabun r)) ->
  forall q, q <> RootParam key -> ask iter t q = ask iter r q.
Proof.
  intros Df Hk Sk.
  assert (Ml : forall k, root_mlist t k = root_mlist r k).
  { intros k. unfold root_mlist. rewrite Df. destruct (eqb_bytes k key) eqn:E; [apply eqb_bytes_eq in E; subst k; rewrite Hk; reflexivity|]. rewrite Sk; [reflexivity|]. intros ->. rewrite eqb_bytes_refl in E. discriminate. }
  assert (Rf : forall s k, get_ref t s k = get_ref r s k).
  { intros s k. unfold get_ref, spot_ref, root_table. rewrite Df. reflexivity. }
  assert (En : forall s, get_enum iter t s = get_enum iter r s).
  { intros s. unfold get_enum, spot_ref, root_table. rewrite Df. reflexivity. }
  assert (V : forall w, visit iter t w = visit iter r w).
  { induction w as [tb id|l k|l id|w IH k j|w IH k id|w IH k|w IH k]; cbn [visit].
    - unfold root_table. rewrite Df. reflexivity.
    - unfold root_clist. rewrite Df. reflexivity.
    - rewrite Df, Ml. reflexivity.
    - rewrite IH. reflexivity.
    - rewrite IH. reflexivity.
    - rewrite IH. destruct (visit iter r w) as [[s|]| |]; try reflexivity. cbn [bind]. rewrite Rf. reflexivity.
    - rewrite IH. destruct (visit iter r w) as [[s|]| |]; try reflexivity. cbn [bind]. rewrite En. reflexivity. }
  intros q Nq. destruct q as [k|k|w|w k|w k|w|w k]; cbn [ask]; unfold at_item; rewrite ?V; try reflexivity.
  - unfold get_root_param, root_obj_param. rewrite Df. rewrite Sk; [reflexivity|]. intros ->. exact (Nq eq_refl).
  - rewrite Df, Ml. reflexivity.
Qed.
