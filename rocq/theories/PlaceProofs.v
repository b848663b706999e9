(** Applying a difference keeps documents without duplicates; placing what was read in the
    memory. *)
From Verif Require Import Base CompactionModel CompactionSpec StringCompactionModel StringCompactionProofs LinkedModel LinkedSpec LinkedProofs DocModel DiffModel DiffWireModel DiffSpec DiffProofs DiffProofs2 DiffProofs3
  DiffEditSpec DiffEditProofs JsonProofs IntfProofs SizeSpec SizeProofs GrownProofs WholeSpec.

Lemma mfold_pres {A B} (f : A -> B -> res A) (P : A -> Prop) : (forall a b a', P a -> f a b = Ok a' -> P a') ->
  forall l a a', P a -> mfold f l a = Ok a' -> P a'.
Proof.
  intros H. induction l as [|b l IH]; intros a a' Pa E; cbn [mfold] in E; [apply Ok_inj in E; subst; exact Pa|].
  apply bind_ok in E as (x & Ex & E). eapply IH; [eapply H; eassumption|exact E].
Qed.

Section Clean.
Context {M L LD : Type}.
Variable inner_apply : L -> LD -> M -> res L.
Variable inner_make : LD -> M -> res L.
Variable cl : L -> Prop.
Hypothesis Ha : forall l d m r, cl l -> inner_apply l d m = Ok r -> cl r.
Hypothesis Hm : forall d m r, inner_make d m = Ok r -> cl r.

Definition clean_vals (m : hmap (lval L)) : Prop := NoDup (map fst m) /\ forall key l, hget key m = Some (LMil (Some l)) -> cl l.

Lemma clean_hset key v m : clean_vals m -> (forall l, v = LMil (Some l) -> cl l) -> clean_vals (hset key v m).
Proof.
  intros (N & C) H. split; [apply hset_nodup; exact N|]. intros k l E. destruct (name_dec k key) as [->|Hk].
  - rewrite hget_hset_same in E. apply Some_inj in E. apply H. exact E.
  - rewrite hget_hset_other in E by exact Hk. eapply C; exact E.
Qed.

Lemma clean_params ps (meta : metatable M) : forall r r', clean_vals r -> apply_params ps meta r = Ok r' -> clean_vals r'.
Proof.
  intros r r'. unfold apply_params. apply mfold_pres. intros a [id p] a' C E. destruct (meta_get meta id) as [[key mv]|]; [|discriminate]. apply Ok_inj in E; subst a'.
  apply clean_hset; [exact C|discriminate].
Qed.

Lemma clean_lists ls (meta : metatable M) : forall r r', clean_vals r -> apply_lists inner_apply inner_make ls meta r = Ok r' -> clean_vals r'.
Proof.
  intros r r'. unfold apply_lists. apply mfold_pres. intros a [id o] a' C E. destruct (meta_get meta id) as [[key mv]|]; [|discriminate].
  assert (G : forall tables, match o with
        | Some list_diff =>
            match hget key a with
            | Some (LMil (Some m)) => m <- inner_apply m list_diff tables ; Ok (hset key (LMil (Some m)) a)
            | _ => m <- inner_make list_diff tables ; Ok (hset key (LMil (Some m)) a)
            end
        | None => Ok (hset key (LMil None) a)
        end = Ok a' -> clean_vals a').
  { intros tables G. destruct o as [ld|]; [|apply Ok_inj in G; subst a'; apply clean_hset; [exact C|discriminate]].
    destruct (hget key a) as [[| |[m|]]|] eqn:Ek; apply bind_ok in G as (x & Ex & G); apply Ok_inj in G; subst a'; (apply clean_hset; [exact C|]); intros l El; injection El as <-; try (eapply Hm; exact Ex).
    eapply Ha; [|exact Ex]. eapply C; exact Ek. }
  destruct mv; try discriminate; eapply G; exact E.
Qed.

Lemma clean_refs rs (meta : metatable M) : forall r r', NoDup (map fst r) -> apply_refs rs meta r = Ok r' -> NoDup (map fst r').
Proof.
  intros r r'. unfold apply_refs. apply (mfold_pres _ (fun r => NoDup (map fst r))). intros a [id q] a' C E. destruct (meta_get meta id) as [[key mv]|]; [|discriminate]. apply Ok_inj in E; subst a'. apply hset_nodup; exact C.
Qed.

Lemma clean_modify it d (meta : metatables M) r : clean_item cl it -> modify_item_from_diff inner_apply inner_make it d meta = Ok r -> clean_item cl r.
Proof.
  intros (Nv & Nr & C) E. unfold modify_item_from_diff in E. apply bind_ok in E as (v1 & E1 & E). apply bind_ok in E as (v2 & E2 & E). apply bind_ok in E as (rs & E3 & E). apply Ok_inj in E; subst r.
  apply clean_params in E1; [|split; [exact Nv|exact C]]. apply clean_lists in E2; [|exact E1]. apply clean_refs in E3; [|exact Nr]. destruct E2 as (A & B). split; [exact A|]. split; [exact E3|exact B].
Qed.

(** the same with [In] *)
Definition clean_items (l : list (Z * item L)) : Prop := NoDup (ids l) /\ Forall (fun e => clean_item cl (snd e)) l.
Lemma clean_items_list (l : mlist (item L)) : clean_items (fst l) <-> clean_list cl l.
Proof.
  split; intros (N & C); (split; [exact N|]).
  - intros id it E. apply lookup_in' in E. rewrite Forall_forall in C. apply (C _ E).
  - apply Forall_forall. intros [id it] I. apply (C id it). apply in_lookup; assumption.
Qed.

Lemma clean_perm l l' : Permutation l l' -> clean_items l -> clean_items l'.
Proof.
  intros P (N & C). split; [unfold ids in *; eapply Permutation_NoDup; [apply Permutation_map; exact P|exact N]|]. eapply Permutation_Forall; eassumption.
Qed.
Lemma clean_without id l : clean_items l -> clean_items (without id l).
Proof.
  intros (N & C). unfold without. split.
  - unfold ids in *. induction l as [|e l IH]; [constructor|]. cbn [map] in N. inversion N as [|? ? A B]; subst. inversion C; subst. cbn [filter]. destruct (negb (fst e =? id)); [|auto].
    cbn [map]. constructor; [|auto]. intros I. apply A. apply in_map_iff in I as (x & <- & I). apply filter_In in I as [I _]. apply in_map. exact I.
  - apply Forall_forall. intros e I. apply filter_In in I as [I _]. rewrite Forall_forall in C. auto.
Qed.
Lemma after_perm k (x : Z * item L) l : has k l = true -> Permutation (x :: l) (after k x l).
Proof.
  induction l as [|y l IH]; intros H; [discriminate|]. cbn [after]. destruct (fst y =? k) eqn:E; [apply perm_swap|]. rewrite perm_swap. apply perm_skip. apply IH.
  apply has_spec in H as [H|H]; [apply Z.eqb_neq in E; contradiction|]. apply has_spec. exact H.
Qed.
Lemma has_ids id (l : list (Z * item L)) : has id l = false -> ~ In id (ids l).
Proof. intros H I. apply has_spec in I. congruence. Qed.

Lemma clean_entry (meta : metatables M) l e l' : clean_items (fst l) -> apply_entry inner_apply inner_make meta l e = Ok l' -> clean_items (fst l').
Proof.
  intros C E. destruct l as [l nx], e as [id diff]. cbn [fst] in C. unfold apply_entry in E. destruct diff as [|prev d|d].
  - apply Ok_inj in E; subst l'. cbn [astep fst]. apply clean_without; exact C.
  - apply bind_ok in E as (it & Ei & E). unfold new_item_from_diff in Ei. apply clean_modify in Ei; [|split; [constructor|split; [constructor|discriminate]]].
    cbn [astep] in E. destruct (has id l) eqn:Eh; [discriminate|].
    assert (C1 : clean_items ((id, it) :: l)). { destruct C as (N & C). split; [cbn [ids map fst]; constructor; [apply has_ids; exact Eh|exact N]|constructor; [exact Ei|exact C]]. }
    destruct prev as [k|]; [|apply Ok_inj in E; subst l'; exact C1].
    cbn [astep] in E. destruct (lookup id ((id, it) :: l)) as [v|] eqn:El; [|discriminate]. destruct ((id =? k) || negb (has k ((id, it) :: l))) eqn:Eb; [discriminate|]. apply Ok_inj in E; subst l'. cbn [fst].
    apply orb_false_iff in Eb as [Ek Eh']. apply negb_false_iff in Eh'.
    cbn [lookup] in El. rewrite Z.eqb_refl in El. apply Some_inj in El; subst v.
    assert (Ew : without id ((id, it) :: l) = l).
    { unfold without. cbn [filter fst]. rewrite Z.eqb_refl. cbn [negb]. apply LinkedProofs.filter_all. intros y I. apply negb_true_iff. apply Z.eqb_neq. intros Ey. apply (has_ids id l Eh). unfold ids. rewrite <- Ey. apply in_map. exact I. }
    rewrite Ew. eapply clean_perm; [apply after_perm|exact C1]. apply has_spec in Eh' as [H|H]; [apply Z.eqb_neq in Ek; contradiction|]. apply has_spec. exact H.
  - destruct (lookup id (fst (l, nx))) as [it|] eqn:El; [|discriminate]. apply bind_ok in E as (it' & Ei & E). apply Ok_inj in E; subst l'. cbn [astep fst] in *. destruct C as (N & C).
    assert (Ci : clean_item cl it') by (eapply clean_modify; [|exact Ei]; apply lookup_in' in El; rewrite Forall_forall in C; apply (C _ El)).
    unfold assign. split.
    + replace (ids (map (fun p => if fst p =? id then (fst p, it') else p) l)) with (ids l); [exact N|]. unfold ids. rewrite map_map. apply map_ext. intros [k v]. cbn [fst]. destruct (k =? id); reflexivity.
    + apply Forall_forall. intros y I. apply in_map_iff in I as (x & <- & I). rewrite Forall_forall in C. destruct (fst x =? id); [exact Ci|auto].
Qed.

Lemma clean_apply_list l d (meta : metatables M) r : clean_list cl l -> apply_list_diff inner_apply inner_make l d meta = Ok r -> clean_list cl r.
Proof.
  intros C E. destruct d as [vec nx]. unfold apply_list_diff in E. apply clean_items_list. apply clean_items_list in C. destruct l as [l k]. cbn [astep fst] in *.
  revert E. apply (mfold_pres _ (fun l => clean_items (fst l))); [|exact C]. intros a b a'. apply clean_entry.
Qed.
End Clean.

Lemma clean_appliers n : (forall l d m r, cleanT n l -> apply_list_diffT n l d m = Ok r -> cleanT n r) /\ (forall d m r, diff_to_new_listT n d m = Ok r -> cleanT n r).
Proof.
  induction n as [|n (IH1 & IH2)]; [split; intros; exact Logic.I|]. unfold apply_list_diffT, diff_to_new_listT in *. cbn [appliers fst snd cleanT].
  split; [intros l d m r; apply clean_apply_list; assumption|]. intros d m r E. eapply (clean_apply_list _ _ (cleanT n) IH1 IH2); [|exact E]. split; [constructor|discriminate].
Qed.

Lemma clean_apply {n} (f : sabun n) def v r : clean_root f -> apply_diff f def v = Ok r -> clean_root r.
Proof.
  intros C E. unfold apply_diff in E. apply bind_ok in E as (T & _ & E). apply bind_ok in E as ([[ks a] b] & _ & E). apply bind_ok in E as ([d rest] & _ & E).
  unfold apply_root_diff in E. apply bind_ok in E as (s & E1 & E2). destruct (clean_appliers n) as (A & B).
  assert (Hs : forall key w (s : sabun n), clean_root s -> (forall l, w = RMut (Some l) -> cleanT n l) -> clean_root (hset key w s)).
  { intros key w x (N & Cx) H. split; [apply hset_nodup; exact N|]. intros k l Ek. destruct (name_dec k key) as [->|Hk].
    - rewrite hget_hset_same in Ek. apply Some_inj in Ek. apply H. exact Ek.
    - rewrite hget_hset_other in Ek by exact Hk. eapply Cx; exact Ek. }
  assert (C1 : clean_root s).
  { revert E1. unfold apply_root_params. apply mfold_pres; [|exact C]. intros x [id p] x' Cx Ex. destruct (meta_get T id) as [[key mv]|]; [|discriminate]. apply Ok_inj in Ex; subst x'. apply Hs; [exact Cx|discriminate]. }
  revert E2. unfold apply_root_lists. apply mfold_pres; [|exact C1]. intros x [id o] x' Cx Ex. destruct (meta_get T id) as [[key mv]|]; [|discriminate].
  assert (G : forall tables, match hget key x with
        | Some (RMut (Some m)) =>
            match o with
            | Some list_diff => m <- apply_list_diffT n m list_diff tables ; Ok (hset key (RMut (Some m)) x)
            | None => Ok (hset key (RMut None) x)
            end
        | Some (RMut None) =>
            match o with
            | Some list_diff => m <- diff_to_new_listT n list_diff tables ; Ok (hset key (RMut (Some m)) x)
            | None => Ok x
            end
        | _ => Panic
        end = Ok x' -> clean_root x').
  { intros tables G. destruct (hget key x) as [[|[m|]]|] eqn:Ek; try discriminate; (destruct o as [ld|]; [apply bind_ok in G as (y & Ey & G)|]); apply Ok_inj in G; subst x'; try exact Cx;
      (apply Hs; [exact Cx|]); intros l El; try discriminate; injection El as <-.
    - eapply A; [|exact Ey]. eapply Cx; exact Ek.
    - eapply B; exact Ey. }
  destruct mv; try discriminate; eapply G; exact Ex.
Qed.

(* ------------------------------------------------------------------ *)
(** * Placing *)

Section Place.
Variable addr : list Z -> Z.
Variable mem : Z -> list Z.
Hypothesis Hm : forall s, mem (addr s) = s.

Lemma place_same_param p : same_param (place_param addr p) p.
Proof. destruct p as [q|q|q|q|q|q|q]; cbn [place_param]; try apply same_param_refl; destruct q; cbn; auto; reflexivity. Qed.
Lemma place_held_param p : held_param mem (place_param addr p).
Proof. destruct p as [q|q|q|q|q|q|q]; cbn [place_param held_param]; auto; destruct q; cbn; auto. Qed.

Section Lists.
Context {L : Type}.
Variable inner : L -> L.
Variables held cl : L -> Prop.
Variable same : L -> L -> Prop.
Hypothesis Is : forall l, same (inner l) l.
Hypothesis Ih : forall l, held (inner l).
Hypothesis Ic : forall l, cl l -> cl (inner l).

Lemma place_values it key : hget key (it_values (place_item addr inner it)) = option_map (place_value addr inner) (hget key (it_values it)).
Proof. unfold place_item. cbn [it_values]. apply (hget_map (place_value addr inner)). Qed.

Lemma place_same_item it : same_item same (place_item addr inner it) it.
Proof.
  split; [|reflexivity]. intros key. rewrite place_values. destruct (hget key (it_values it)) as [[p|t|[l|]]|]; cbn; auto. apply place_same_param.
Qed.
Lemma place_held_item it : held_item mem held (place_item addr inner it).
Proof.
  intros key v E. rewrite place_values in E. destruct (hget key (it_values it)) as [[p|t|[l|]]|]; cbn in E; try discriminate; apply Some_inj in E; subst v; auto. apply place_held_param.
Qed.
Lemma place_clean_item it : clean_item cl it -> clean_item cl (place_item addr inner it).
Proof.
  intros (A & B & C). split; [unfold place_item; cbn [it_values]; rewrite map_map; exact A|]. split; [exact B|]. intros key l E. rewrite place_values in E. specialize (C key).
  destruct (hget key (it_values it)) as [[p|t|[x|]]|]; cbn in E; try discriminate. apply Some_inj in E. injection E as <-. auto.
Qed.

Lemma place_lookup l id : lookup id (fst (place_list addr inner l)) = option_map (place_item addr inner) (lookup id (fst l)).
Proof. unfold place_list. cbn [fst]. apply (lookup_map_snd (place_item addr inner)). Qed.
Lemma place_ids l : ids (fst (place_list addr inner l)) = ids (fst l).
Proof. unfold place_list, ids. cbn [fst]. rewrite map_map. reflexivity. Qed.

Lemma place_same_list l : same_list true true same (place_list addr inner l) l.
Proof.
  split; [apply place_ids|]. split; [|reflexivity]. intros id. rewrite place_lookup. destruct (lookup id (fst l)); cbn; [apply place_same_item|exact Logic.I].
Qed.
Lemma place_held_list l : held_list mem held (place_list addr inner l).
Proof. intros id it E. rewrite place_lookup in E. destruct (lookup id (fst l)); [|discriminate]. apply Some_inj in E; subst it. apply place_held_item. Qed.
Lemma place_clean_list l : clean_list cl l -> clean_list cl (place_list addr inner l).
Proof.
  intros (N & C). split; [rewrite place_ids; exact N|]. intros id it E. rewrite place_lookup in E. specialize (C id). destruct (lookup id (fst l)) as [x|]; [|discriminate]. apply Some_inj in E; subst it.
  apply place_clean_item. auto.
Qed.
End Lists.

Lemma placeT_same n : forall l, sameT true true n (placeT addr n l) l.
Proof. induction n as [|n IH]; intros l; cbn [sameT placeT]; [exact Logic.I|]. apply place_same_list. exact IH. Qed.
Lemma placeT_held n : forall l, heldT mem n (placeT addr n l).
Proof. induction n as [|n IH]; intros l; cbn [heldT placeT]; [exact Logic.I|]. apply place_held_list. exact IH. Qed.
Lemma placeT_clean n : forall l, cleanT n l -> cleanT n (placeT addr n l).
Proof. induction n as [|n IH]; intros l; cbn [cleanT placeT]; [auto|]. apply place_clean_list. exact IH. Qed.

Lemma place_get {n} (s : sabun n) key : hget key (place_root addr s) = option_map (place_rootval addr) (hget key s).
Proof. apply (hget_map (place_rootval addr)). Qed.

Lemma place_same {n} (s : sabun n) : same_root true true (place_root addr s) s.
Proof. intros key. rewrite place_get. destruct (hget key s) as [[p|[l|]]|]; cbn; auto; [apply place_same_param|apply placeT_same]. Qed.
Lemma place_held {n} (s : sabun n) : held_root mem (place_root addr s).
Proof.
  intros key v E. rewrite place_get in E. destruct (hget key s) as [[p|[l|]]|]; cbn in E; try discriminate; apply Some_inj in E; subst v; auto; [apply place_held_param|apply placeT_held].
Qed.
Lemma place_clean {n} (s : sabun n) : clean_root s -> clean_root (place_root addr s).
Proof.
  intros (N & C). split; [unfold place_root; rewrite map_map; exact N|]. intros key l E. rewrite place_get in E. specialize (C key). destruct (hget key s) as [[p|[x|]]|]; cbn in E; try discriminate.
  apply Some_inj in E. injection E as <-. apply placeT_clean. auto.
Qed.

Lemma placed_applies {n} (def : rootdef n) : applies mem def (apply_placed addr def).
Proof.
  intros f v r T _ E _. unfold apply_placed. rewrite E. cbn [bind]. exists (place_root addr r). split; [reflexivity|]. split; [apply place_same|]. split; [|apply place_held].
  apply place_clean. eapply clean_apply; [|exact E]. eapply typed_clean; exact T.
Qed.
End Place.
