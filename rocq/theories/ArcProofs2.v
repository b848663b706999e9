(** Proofs for C60, continued: maps, items and lists in memory. *)
From Coq Require Import Sorting.Permutation.
From Verif Require Import Base StringCompactionModel LinkedModel LinkedSpec DocModel JsonModel ValidModel IntfModel.
From Verif Require Import StringCompactionProofs LinkedProofs DiffProofs DiffProofs3 DiffEditProofs IntfProofs ArcModel ArcSpec ArcProofs.

(* ------------------------------------------------------------------ *)
(** * Pairs *)

Section Paired.
Context {A B : Type}.
Variable R : A -> B -> Prop.

Lemma paired_hget k : forall (m : hmap A) (m' : hmap B), paired R m m' ->
  match hget k m, hget k m' with Some v, Some w => R v w | None, None => True | _, _ => False end.
Proof.
  intros m m' P. unfold paired in P. induction P as [|[x v] [y w] m m' [E Rv] P IH]; cbn [hget]; [exact Logic.I|].
  cbn [fst snd] in E, Rv. subst y. destruct (eqb_bytes x k); [exact Rv|exact IH].
Qed.
Lemma paired_hset k v w : R v w -> forall (m : hmap A) (m' : hmap B), paired R m m' -> paired R (hset k v m) (hset k w m').
Proof.
  intros H m m' P. unfold paired in *. induction P as [|[x v0] [y w0] m m' [E Rv] P IH]; cbn [hset].
  - constructor; [split; [reflexivity|exact H]|constructor].
  - cbn [fst snd] in E, Rv. subst y. destruct (eqb_bytes x k).
    + constructor; [split; [reflexivity|exact H]|exact P].
    + constructor; [split; [reflexivity|exact Rv]|exact IH].
Qed.
Lemma paired_ids (c : list (Z * A)) (l : list (Z * B)) : paired R c l -> ids c = ids l.
Proof. intros P. unfold paired in P. unfold ids. induction P as [|x y c l [E _] P IH]; [reflexivity|]. cbn [map]. congruence. Qed.
Lemma paired_lookup k : forall (c : list (Z * A)) (l : list (Z * B)), paired R c l ->
  match lookup k c, lookup k l with Some v, Some w => R v w | None, None => True | _, _ => False end.
Proof.
  intros c l P. unfold paired in P. induction P as [|[x v] [y w] m m' [E Rv] P IH]; cbn [lookup]; [exact Logic.I|].
  cbn [fst snd] in E, Rv. subst y. destruct (k =? x); [exact Rv|exact IH].
Qed.
Lemma paired_assign k v w : R v w -> forall (c : list (Z * A)) (l : list (Z * B)), paired R c l -> paired R (assign k v c) (assign k w l).
Proof.
  intros H c l P. unfold paired, assign in *. induction P as [|[x v0] [y w0] m m' [E Rv] P IH]; cbn [map]; [constructor|].
  cbn [fst snd] in E, Rv. subst y. constructor; [|exact IH]. cbn [fst]. destruct (x =? k); split; auto.
Qed.
Lemma paired_without k : forall (c : list (Z * A)) (l : list (Z * B)), paired R c l -> paired R (without k c) (without k l).
Proof.
  intros c l P. unfold paired, without in *. induction P as [|[x v0] [y w0] m m' [E Rv] P IH]; cbn [filter]; [constructor|].
  cbn [fst snd] in E, Rv. subst y. cbn [fst]. destruct (x =? k); cbn [negb]; [exact IH|]. constructor; [split; auto|exact IH].
Qed.
Lemma paired_before k x v w : R v w -> forall (c : list (Z * A)) (l : list (Z * B)), paired R c l -> paired R (before k (x, v) c) (before k (x, w) l).
Proof.
  intros H c l P. unfold paired in *. induction P as [|[y v0] [z w0] m m' [E Rv] P IH]; cbn [before]; [constructor|].
  cbn [fst snd] in E, Rv. subst z. cbn [fst]. destruct (y =? k); (constructor; [split; auto|]); [constructor; [split; auto|exact P]|exact IH].
Qed.
Lemma paired_after k x v w : R v w -> forall (c : list (Z * A)) (l : list (Z * B)), paired R c l -> paired R (after k (x, v) c) (after k (x, w) l).
Proof.
  intros H c l P. unfold paired in *. induction P as [|[y v0] [z w0] m m' [E Rv] P IH]; cbn [after]; [constructor|].
  cbn [fst snd] in E, Rv. subst z. cbn [fst]. destruct (y =? k); (constructor; [split; auto|]); [constructor; [split; auto|exact P]|exact IH].
Qed.
Lemma paired_app {K} (c c' : list (K * A)) (l l' : list (K * B)) : paired R c l -> paired R c' l' -> paired R (c ++ c') (l ++ l').
Proof. apply Forall2_app. Qed.
Lemma paired_one {K} (k : K) v w : R v w -> paired R [(k, v)] [(k, w)].
Proof. intros H. constructor; [split; [reflexivity|exact H]|constructor]. Qed.
Lemma paired_tl {K} (c : list (K * A)) (l : list (K * B)) : paired R c l -> paired R (tl c) (tl l).
Proof. intros P. inversion P; subst; [constructor|assumption]. Qed.
Lemma paired_removelast {K} (c : list (K * A)) (l : list (K * B)) : paired R c l -> paired R (removelast c) (removelast l).
Proof.
  intros P. unfold paired in *. induction P as [|x y c l E P IH]; [constructor|].
  destruct P as [|x2 y2 c2 l2 E2 P2]; [constructor|]. change (Forall2 (fun e e' => fst e = fst e' /\ R (snd e) (snd e')) (x :: removelast (x2 :: c2)) (y :: removelast (y2 :: l2))).
  constructor; [exact E|exact IH].
Qed.
Lemma paired_length {K} (c : list (K * A)) (l : list (K * B)) : paired R c l -> length c = length l.
Proof. intros P. unfold paired in P. induction P; cbn; congruence. Qed.
Lemma paired_nil {K} (l : list (K * B)) : paired R [] l -> l = [].
Proof. intros P. inversion P. reflexivity. Qed.
Lemma paired_nil_l {K} (c : list (K * A)) : paired R c [] -> c = [].
Proof. intros P. inversion P. reflexivity. Qed.
End Paired.

Lemma paired_impl {K A B} (R R' : A -> B -> Prop) : forall (c : list (K * A)) (l : list (K * B)), paired R c l ->
  (forall e w, In e c -> R (snd e) w -> R' (snd e) w) -> paired R' c l.
Proof.
  intros c l P. unfold paired in *. induction P as [|x y c l [E Rx] P IH]; intros H; [constructor|].
  constructor; [split; [exact E|apply (H x); [left; reflexivity|exact Rx]]|]. apply IH. intros e w He. apply H. right. exact He.
Qed.
Lemma paired_refl {K A} (R : A -> A -> Prop) (c : list (K * A)) : (forall v, R v v) -> paired R c c.
Proof. intros H. induction c as [|x c IH]; [constructor|]. constructor; [split; [reflexivity|apply H]|exact IH]. Qed.
Lemma paired_in {K A B} (R : A -> B -> Prop) (c : list (K * A)) (l : list (K * B)) e : paired R c l -> In e c -> exists w, R (snd e) w.
Proof.
  intros P. unfold paired in P. induction P as [|x y c l [_ Rx] P IH]; [intros []|]. intros [<-|H]; [exists (snd y); exact Rx|apply IH, H].
Qed.

Lemma occ_flat_perm {E} (f : E -> list Z) x (l l' : list E) : Permutation l l' -> occ x (flat_map f l) = occ x (flat_map f l').
Proof. induction 1; cbn [flat_map]; rewrite ?occ_app in *; lia. Qed.

Lemma occ_hset {A} (f : A -> list Z) x key v : forall m : hmap A,
  occ x (flat_map (fun e => f (snd e)) (hset key v m)) + match hget key m with Some old => occ x (f old) | None => 0 end =
  occ x (flat_map (fun e => f (snd e)) m) + occ x (f v).
Proof.
  induction m as [|[k w] m IH]; cbn [hset hget flat_map snd]; [rewrite app_nil_r; cbn [occ]; lia|].
  destruct (eqb_bytes k key); cbn [flat_map snd]; rewrite !occ_app; [lia|]. lia.
Qed.

Lemma addrs_bare q : addrs (bare q) = addrs q.
Proof. destruct q as [x|x|x|x|x|x|x]; try reflexivity; destruct x; reflexivity. Qed.
Lemma type_bare q : type_of (bare q) = type_of q.
Proof. destruct q as [x|x|x|x|x|x|x]; try reflexivity; destruct x; reflexivity. Qed.

(* ------------------------------------------------------------------ *)
(** * What is kept is the same document *)

Definition lvalR n h := lval_at h (list_at n h).
Definition itemR n h := item_at h (list_at n h).

Lemma param_kept h h' q : (forall x, In x (addrs q) -> kept h h' x) -> param_at h q -> param_at h' q.
Proof.
  unfold param_at, addrs. rewrite !Forall_forall. intros K P [a s] H. specialize (P _ H). cbn [fst snd] in *.
  eapply kept_content; [|exact P]. apply K. apply in_map_iff. exists (a, s). split; [reflexivity|exact H].
Qed.
Lemma lval_kept' n h h' : (forall a l, kept h h' a -> list_at n h a l -> list_at n h' a l) ->
  forall v w, (forall x, In x (lval_refs v) -> kept h h' x) -> lvalR n h v w -> lvalR n h' v w.
Proof.
  intros L [p|t|[a|]] [q|u|[l|]] K; unfold lvalR; cbn [lval_at]; try tauto.
  - intros [-> P]. split; [reflexivity|]. eapply param_kept; [|exact P]. intros x Hx. apply K. cbn [lval_refs]. rewrite addrs_bare. exact Hx.
  - intros P. apply L; [|exact P]. apply K. left. reflexivity.
Qed.
Lemma vals_kept' n h h' : (forall a l, kept h h' a -> list_at n h a l -> list_at n h' a l) ->
  forall a m, kept h h' a -> vals_at h (list_at n h) a m -> vals_at h' (list_at n h') a m.
Proof.
  intros L a m K (c & E & P). exists c. split; [eapply kept_content; eassumption|].
  apply (paired_impl (lvalR n h) (lvalR n h') c m P). intros e w He. apply lval_kept'; [exact L|].
  intros x Hx. eapply kept_child; [exact K|exact E|]. cbn [children]. apply in_flat_map. exists e. split; assumption.
Qed.
Lemma item_kept' n h h' : (forall a l, kept h h' a -> list_at n h a l -> list_at n h' a l) ->
  forall x it, kept h h' (fst x) -> kept h h' (snd x) -> itemR n h x it -> itemR n h' x it.
Proof.
  intros L x it K1 K2 [V E]. split; [eapply vals_kept'; eassumption|eapply kept_content; eassumption].
Qed.
Lemma list_kept : forall n h h' a l, kept h h' a -> list_at n h a l -> list_at n h' a l.
Proof.
  induction n as [|n IH]; intros h h' a l K; cbn [list_at]; [intros []|].
  intros (ND & c & E & P). split; [exact ND|]. exists c. split; [eapply kept_content; eassumption|].
  apply (paired_impl (itemR n h) (itemR n h') _ _ P). intros e it He.
  assert (C : forall z, z = fst (snd e) \/ z = snd (snd e) -> kept h h' z).
  { intros z Hz. eapply kept_child; [exact K|exact E|]. cbn [children fst]. apply in_flat_map. exists e. split; [exact He|].
    destruct Hz as [-> | ->]; [left|right; left]; reflexivity. }
  apply item_kept'; [apply IH|apply C; left; reflexivity|apply C; right; reflexivity].
Qed.
Lemma lval_kept n h h' v w : (forall x, In x (lval_refs v) -> kept h h' x) -> lvalR n h v w -> lvalR n h' v w.
Proof. apply lval_kept', list_kept. Qed.
Lemma vals_kept n h h' a m : kept h h' a -> vals_at h (list_at n h) a m -> vals_at h' (list_at n h') a m.
Proof. apply vals_kept', list_kept. Qed.
Lemma item_kept n h h' x it : kept h h' (fst x) -> kept h h' (snd x) -> itemR n h x it -> itemR n h' x it.
Proof. apply item_kept', list_kept. Qed.
(** the content of a cell, below the cell *)
Lemma entries_kept n h h' m m' : (forall x, In x (children (CVals m)) -> kept h h' x) -> paired (lvalR n h) m m' -> paired (lvalR n h') m m'.
Proof.
  intros K P. apply (paired_impl (lvalR n h) (lvalR n h') _ _ P). intros e w He. apply lval_kept.
  intros x Hx. apply K. cbn [children]. apply in_flat_map. exists e. split; assumption.
Qed.
Lemma items_kept n h h' (c : mlist (Z * Z)) l : (forall x, In x (children (CList c)) -> kept h h' x) -> paired (itemR n h) (fst c) l -> paired (itemR n h') (fst c) l.
Proof.
  intros K P. apply (paired_impl (itemR n h) (itemR n h') _ _ P). intros e w He.
  assert (C : forall z, z = fst (snd e) \/ z = snd (snd e) -> kept h h' z).
  { intros z Hz. apply K. cbn [children]. apply in_flat_map. exists e. split; [exact He|].
    destruct Hz as [-> | ->]; [left|right; left]; reflexivity. }
  apply item_kept; apply C; auto.
Qed.
Lemma def_kept : forall n h h' held d, (forall x, In x held -> kept h h' x) -> def_at n h held d -> def_at n h' held d.
Proof.
  induction n as [|n IH]; intros h h' held d K; cbn [def_at]; [auto|]. intros [A B]. split.
  - intros key id p vt H. destruct (A _ _ _ _ H) as [P I]. split; [|exact I]. eapply param_kept; [|exact P]. intros x Hx. apply K, I, Hx.
  - intros key id d' u H. eapply IH; [exact K|]. eapply B, H.
Qed.

(* ------------------------------------------------------------------ *)
(** * Drops *)

Section Held.
Variable held : list Z.
Notation moved := (moved held).

Lemma drop_leaf_spec h out a v : counted h (a :: out) -> content h a = Some v -> children v = [] ->
  exists h', drop_leaf h a = Ok h' /\ moved out h [a] h' [].
Proof.
  intros C E N. destruct (lookup_content _ _ _ E) as [c L]. unfold drop_leaf, get. rewrite L. cbn [bind].
  eexists. split; [reflexivity|]. destruct (Z.eqb_spec c 1) as [->|NE].
  - destruct (moved_free held out h a v C L) as [M _]. rewrite N in M. exact M.
  - apply (moved_release held out h a c v C L NE).
Qed.

Section Many.
Context {E : Type}.
Variable f : heap -> E -> res heap.
Variable refs : E -> list Z.
Variable P : heap -> E -> Prop.
Hypothesis step : forall h out e, counted h (refs e ++ out) -> P h e -> exists h', f h e = Ok h' /\ moved out h (refs e) h' [].
Hypothesis keep : forall h h' e, (forall x, In x (refs e) -> kept h h' x) -> P h e -> P h' e.

Lemma mfold_drop : forall l h out, counted h (flat_map refs l ++ out) -> (forall e, In e l -> P h e) ->
  exists h', mfold f l h = Ok h' /\ moved out h (flat_map refs l) h' [].
Proof.
  induction l as [|e l IH]; intros h out C HP; cbn [mfold flat_map].
  - exists h. split; [reflexivity|]. apply moved_refl. exact C.
  - cbn [flat_map] in C. rewrite <- app_assoc in C.
    destruct (step h (flat_map refs l ++ out) e C (HP e (or_introl eq_refl))) as (h1 & E1 & M1). rewrite E1. cbn [bind].
    destruct (IH h1 out) as (h2 & E2 & M2).
    + destruct M1 as (C1 & _). exact C1.
    + intros e' He'. apply (keep h); [|apply HP; right; exact He']. intros x Hx.
      eapply moved_kept_rest; [exact M1|]. apply in_flat_map. exists e'. split; assumption.
    + exists h2. split; [exact E2|]. eapply moved_trans; [apply moved_frame in M1; exact M1|exact M2].
Qed.
End Many.

Lemma drop_param_spec h out q : counted h (addrs q ++ out) -> param_at h q ->
  exists h', drop_param h (bare q) = Ok h' /\ moved out h (addrs q) h' [].
Proof.
  unfold drop_param. rewrite addrs_bare. unfold param_at, addrs. destruct (texts q) as [|[a s] [|t r]] eqn:E; intros C P; cbn [map mfold fst] in *.
  - exists h. split; [reflexivity|]. apply moved_refl. exact C.
  - inversion P as [|? ? P1 _]; subst. cbn [fst snd] in P1. destruct (drop_leaf_spec h out a _ C P1 eq_refl) as (h' & E' & M).
    rewrite E'. exists h'. split; [reflexivity|exact M].
  - destruct q as [x|x|x|x|x|x|x]; try discriminate; destruct x; discriminate.
Qed.

Section Inner.
Variable n : nat.
Hypothesis drop_inner : forall h out a l, counted h (a :: out) -> list_at n h a l ->
  exists h', drop_list n h a = Ok h' /\ moved out h [a] h' [].

Lemma drop_lval_spec' h out v w : counted h (lval_refs v ++ out) -> lvalR n h v w ->
  exists h', drop_lval (drop_list n) h v = Ok h' /\ moved out h (lval_refs v) h' [].
Proof.
  unfold lvalR. destruct v as [p|t|[a|]], w as [q|u|[l|]]; cbn [lval_at lval_refs drop_lval]; try tauto; intros C.
  - intros [-> P]. rewrite addrs_bare in *. apply drop_param_spec; assumption.
  - intros _. exists h. split; [reflexivity|]. apply moved_refl. exact C.
  - intros P. eapply drop_inner; eassumption.
  - intros _. exists h. split; [reflexivity|]. apply moved_refl. exact C.
Qed.

Lemma drop_vals_spec' h out a m : counted h (a :: out) -> vals_at h (list_at n h) a m ->
  exists h', drop_vals (drop_list n) h a = Ok h' /\ moved out h [a] h' [].
Proof.
  intros C (c & E & P). destruct (lookup_content _ _ _ E) as [k L]. unfold drop_vals, get. rewrite L. cbn [bind].
  destruct (Z.eqb_spec k 1) as [->|NE].
  - destruct (moved_free held out h a _ C L) as [M K]. cbn [children] in M.
    destruct (mfold_drop (fun h e => drop_lval (drop_list n) h (snd e)) (fun e : name * lval Z => lval_refs (snd e)) (fun h e => exists w, lvalR n h (snd e) w)) with (l := c) (h := free h a) (out := out) as (h' & E' & M').
    + intros h0 out0 e C0 [w W]. eapply drop_lval_spec'; eassumption.
    + intros h0 h1 e K0 [w W]. exists w. eapply lval_kept; eassumption.
    + destruct M as (C1 & _). exact C1.
    + intros e He. destruct (paired_in _ _ _ e P He) as [w W]. exists w. eapply lval_kept; [|exact W]. intros x Hx.
      apply K. intros ->. destruct (owned_alone h [] a out _ C L) as (_ & _ & I0).
      pose proof (inside_le a _ _ _ _ L) as LE. cbn [children] in LE.
      assert (In a (flat_map (fun e => lval_refs (snd e)) c)) as F by (apply in_flat_map; exists e; split; assumption).
      apply occ_in in F. lia.
    + exists h'. split; [exact E'|]. eapply moved_trans; eassumption.
  - eexists. split; [reflexivity|]. apply (moved_release held out h a k _ C L NE).
Qed.

Lemma drop_item_spec' h out x it : counted h ([fst x; snd x] ++ out) -> itemR n h x it ->
  exists h', drop_item (drop_list n) h x = Ok h' /\ moved out h [fst x; snd x] h' [].
Proof.
  intros C [V E]. unfold drop_item.
  destruct (drop_vals_spec' h (snd x :: out) (fst x) (it_values it) C V) as (h1 & E1 & M1). rewrite E1. cbn [bind].
  pose proof (moved_kept_rest held out [snd x] h [fst x] h1 [] (snd x) M1 (or_introl eq_refl)) as K.
  destruct (drop_leaf_spec h1 out (snd x) (CRefs (it_refs it))) as (h2 & E2 & M2).
  - destruct M1 as (C1 & _). exact C1.
  - eapply kept_content; eassumption.
  - reflexivity.
  - exists h2. split; [exact E2|]. eapply moved_trans; [|exact M2]. apply (moved_frame held out [snd x] h [fst x] h1 []). exact M1.
Qed.
End Inner.

Lemma drop_list_spec : forall n h out a l, counted h (a :: out) -> list_at n h a l ->
  exists h', drop_list n h a = Ok h' /\ moved out h [a] h' [].
Proof.
  induction n as [|n IH]; intros h out a l C; cbn [list_at]; [intros []|].
  intros (ND & c & E & P). destruct (lookup_content _ _ _ E) as [k L]. cbn [drop_list]. unfold get. rewrite L. cbn [bind].
  destruct (Z.eqb_spec k 1) as [->|NE].
  - destruct (moved_free held out h a _ C L) as [M K]. cbn [children fst] in M. cbn [fst].
    destruct (mfold_drop (fun h e => drop_item (drop_list n) h (snd e)) (fun e : Z * (Z * Z) => [fst (snd e); snd (snd e)]) (fun h e => exists w, itemR n h (snd e) w)) with (l := c) (h := free h a) (out := out) as (h' & E' & M').
    + intros h0 out0 e C0 [w W]. eapply drop_item_spec'; eassumption.
    + intros h0 h1 e K0 [w W]. exists w. eapply item_kept; [| |exact W]; apply K0; [left|right; left]; reflexivity.
    + destruct M as (C1 & _). exact C1.
    + intros e He. destruct (paired_in _ _ _ e P He) as [w W]. exists w.
      assert (KA : forall z, In z [fst (snd e); snd (snd e)] -> kept h (free h a) z).
      { intros z Hz. apply K. intros ->. destruct (owned_alone h [] a out _ C L) as (_ & _ & I0).
        pose proof (inside_le a _ _ _ _ L) as LE. cbn [children fst] in LE.
        assert (In a (flat_map (fun e : Z * (Z * Z) => [fst (snd e); snd (snd e)]) c)) as F by (apply in_flat_map; exists e; split; assumption).
        apply occ_in in F. lia. }
      eapply item_kept; [| |exact W]; apply KA; [left|right; left]; reflexivity.
    + exists h'. split; [exact E'|]. eapply moved_trans; eassumption.
  - eexists. split; [reflexivity|]. apply (moved_release held out h a k _ C L NE).
Qed.

Lemma drop_lval_spec n h out v w : counted h (lval_refs v ++ out) -> lvalR n h v w ->
  exists h', drop_lval (drop_list n) h v = Ok h' /\ moved out h (lval_refs v) h' [].
Proof. apply drop_lval_spec', drop_list_spec. Qed.
Lemma drop_vals_spec n h out a m : counted h (a :: out) -> vals_at h (list_at n h) a m ->
  exists h', drop_vals (drop_list n) h a = Ok h' /\ moved out h [a] h' [].
Proof. apply drop_vals_spec', drop_list_spec. Qed.
Lemma drop_item_spec n h out x it : counted h ([fst x; snd x] ++ out) -> itemR n h x it ->
  exists h', drop_item (drop_list n) h x = Ok h' /\ moved out h [fst x; snd x] h' [].
Proof. apply drop_item_spec', drop_list_spec. Qed.

End Held.
