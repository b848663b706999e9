(** Proofs for C60, continued: calls with items, lists and documents in memory. *)
From Coq Require Import Sorting.Permutation.
From Verif Require Import Base StringCompactionModel LinkedModel LinkedSpec DocModel JsonModel ValidModel IntfModel.
From Verif Require Import StringCompactionProofs LinkedProofs DiffProofs DiffProofs3 DiffEditProofs IntfProofs ArcModel ArcSpec ArcProofs ArcProofs2.

Lemma incl_more {A} (l m : list A) x : incl l m -> incl l (x :: m).
Proof. intros H y Hy. right. apply H, Hy. Qed.

(* ------------------------------------------------------------------ *)
(** * Fresher *)

Lemma fresher_lval_refl {L} (R : L -> L -> Prop) : (forall l, R l l) -> forall v, fresher_lval R v v.
Proof. intros H [p|t|[l|]]; cbn; auto. Qed.
Lemma fresher_item_refl {L} (R : L -> L -> Prop) : (forall l, R l l) -> forall it, fresher_item R it it.
Proof. intros H it. split; [|reflexivity]. apply paired_refl, fresher_lval_refl, H. Qed.
Lemma fresher_refl : forall n l, fresher n l l.
Proof.
  induction n as [|n IH]; intros l; cbn [fresher]; [exact Logic.I|]. split; [left; reflexivity|].
  apply paired_refl, fresher_item_refl, IH.
Qed.
Lemma paired_hset_one {A} (R : A -> A -> Prop) : (forall v, R v v) -> forall key v w (m : hmap A), hget key m = Some v -> R v w -> paired R m (hset key w m).
Proof.
  intros H key v w m E W. rewrite <- (hset_same key v m E) at 1. apply paired_hset; [exact W|]. apply paired_refl, H.
Qed.
Lemma assign_same {V} id (v : V) l : NoDup (ids l) -> lookup id l = Some v -> assign id v l = l.
Proof. intros N E. destruct (lookup_split id l v E N) as (l1 & l2 & -> & _ & _ & As & _). apply As. Qed.
Lemma paired_assign_one {A} (R : A -> A -> Prop) : (forall v, R v v) -> forall id v w l, NoDup (ids l) -> lookup id l = Some v -> R v w ->
  paired R l (assign id w l).
Proof.
  intros H id v w l N E W. rewrite <- (assign_same id v l N E) at 1. apply paired_assign; [exact W|]. apply paired_refl, H.
Qed.
Lemma assign_twice {V} id (v w : V) l : assign id v (assign id w l) = assign id v l.
Proof. unfold assign. rewrite map_map. apply map_ext. intros e. destruct (fst e =? id) eqn:E; cbn [fst]; rewrite E; reflexivity. Qed.
Lemma ids_assign' {V} id (v : V) l : ids (assign id v l) = ids l.
Proof. unfold ids, assign. rewrite map_map. apply map_ext. intros e. destruct (fst e =? id); reflexivity. Qed.

(** opening a list in a map *)
Definition open_vals {L} (m : hmap (lval L)) (key : name) (empty : L) : hmap (lval L) * L :=
  match hget key m with
  | Some (LMil (Some l)) => (m, l)
  | _ => (hset key (LMil (Some empty)) m, empty)
  end.

Lemma fresher_empty n d l0 : fresher n (empty_list n d) l0 -> l0 = empty_list n d.
Proof.
  destruct n as [|n]; [destruct d|]. cbn [fresher empty_list fst snd]. destruct l0 as [l k]. cbn [fst snd].
  intros [K P]. apply paired_nil in P as ->. destruct K as [->|[_ ->]]; reflexivity.
Qed.

Lemma open_fresher n d (m : hmap (lval (mlistT n))) key l0 : fresher n (snd (open_vals m key (empty_list n d))) l0 ->
  exists m0, paired (fresher_lval (fresher n)) m m0 /\ snd (open_vals m0 key (empty_list n d)) = l0 /\
    (forall w, hset key w (fst (open_vals m0 key (empty_list n d))) = hset key w m) /\
    fst (open_vals m0 key (empty_list n d)) = hset key (LMil (Some l0)) m.
Proof.
  assert (RF : paired (fresher_lval (fresher n)) m m) by apply paired_refl, fresher_lval_refl, fresher_refl.
  unfold open_vals. destruct (hget key m) as [[p|t|[l|]]|] eqn:G; cbn [fst snd]; intros F.
  3: { exists (hset key (LMil (Some l0)) m). split; [|rewrite hget_hset_same; cbn [fst snd]; split; [reflexivity|split; [intros w; apply hset_twice|reflexivity]]].
       apply paired_hset_one with (LMil (Some l)); [apply fresher_lval_refl, fresher_refl|exact G|exact F]. }
  all: apply fresher_empty in F as ->; exists m; split; [exact RF|]; rewrite G; cbn [fst snd]; split; [reflexivity|]; split; [intros w; apply hset_twice|reflexivity].
Qed.

(* ------------------------------------------------------------------ *)

Section Run.
Variable held : list Z.
Variable alloc : Z -> list (Z * (Z * cell)) -> Z.
Hypothesis fresh : fresh_alloc alloc.
Notation moved := (moved held).

(** more contents than before *)
Definition extends (h h' : heap) : Prop := forall y w, content h y = Some w -> content h' y = Some w.
Lemma extends_kept h h' x : extends h h' -> kept h h' x.
Proof. apply kept_same. Qed.

Lemma own_vals_spec n h out a m : counted h (a :: out) -> vals_at h (list_at n h) a m ->
  exists h' b c, own_vals alloc h a = Ok (h', b, c) /\ moved out h [a] h' [b] /\ owned h' b (CVals c) /\
    paired (lvalR n h') c m /\ extends h h'.
Proof.
  intros C (c & E & P). destruct (make_mut_spec held alloc fresh out h a _ C E) as (h' & b & v' & E' & V & M & O & X).
  assert (v' = CVals c) as -> by (destruct V; assumption).
  exists h', b, c. unfold own_vals. rewrite E'. cbn [bind]. split; [reflexivity|]. split; [exact M|]. split; [exact O|]. split; [|exact X].
  eapply entries_kept; [|exact P]. intros x _. apply extends_kept; exact X.
Qed.
Lemma own_refs_spec h out a m : counted h (a :: out) -> content h a = Some (CRefs m) ->
  exists h' b, own_refs alloc h a = Ok (h', b, m) /\ moved out h [a] h' [b] /\ owned h' b (CRefs m) /\ extends h h'.
Proof.
  intros C E. destruct (make_mut_spec held alloc fresh out h a _ C E) as (h' & b & v' & E' & V & M & O & X).
  assert (v' = CRefs m) as -> by (destruct V; assumption).
  exists h', b. unfold own_refs. rewrite E'. cbn [bind]. split; [reflexivity|]. split; [exact M|]. split; [exact O|]. exact X.
Qed.
Lemma own_list_spec n h out a l : counted h (a :: out) -> list_at (S n) h a l ->
  exists h' b c, own_list alloc h a = Ok (h', b, c) /\ moved out h [a] h' [b] /\ owned h' b (CList c) /\
    paired (itemR n h') (fst c) (fst l) /\ NoDup (ids (fst l)) /\ (snd c = snd l \/ fst l = [] /\ snd c = 0) /\ extends h h'.
Proof.
  intros C (ND & c & E & P). destruct (make_mut_spec held alloc fresh out h a _ C E) as (h' & b & v' & E' & V & M & O & X).
  assert (exists k, v' = CList (c, k) /\ (k = snd l \/ fst l = [] /\ k = 0)) as (k & -> & K).
  { destruct V as [->| ->]; [exists (snd l); split; [reflexivity|left; reflexivity]|].
    destruct c as [|e c]; [exists 0; split; [reflexivity|right; split; [apply paired_nil in P; exact P|reflexivity]]|].
    exists (snd l); split; [reflexivity|left; reflexivity]. }
  exists h', b, (c, k). unfold own_list. rewrite E'. cbn [bind]. split; [reflexivity|]. split; [exact M|]. split; [exact O|].
  split; [|split; [exact ND|split; [exact K|exact X]]].
  apply (items_kept n h h' (c, k)); [|exact P]. intros x _. apply extends_kept; exact X.
Qed.

(** a child of an owned cell is another cell *)
Lemma owned_child h refs a out v z : counted h (refs ++ a :: out) -> owned h a v -> In z (children v) -> z <> a.
Proof.
  intros C O Hz ->. destruct (owned_alone h refs a out v C O) as (_ & _ & I0). pose proof (inside_le a _ _ _ _ O).
  apply occ_in in Hz. lia.
Qed.

Section Vals.
Variable n : nat.
Implicit Types (m : hmap (lval (mlistT n))).

(** everything below an owned cell but the value of a key *)
Lemma hput_spec h out a c m key v w : counted h ((a :: lval_refs v) ++ out) -> incl held out -> owned h a (CVals c) ->
  paired (lvalR n h) c m -> lvalR n h v w ->
  exists h', hput n h a c key v = Ok h' /\ moved out h (a :: lval_refs v) h' [a] /\ owned h' a (CVals (hset key v c)) /\
    paired (lvalR n h') (hset key v c) (hset key w m).
Proof.
  intros C HH O P W. unfold hput.
  set (old := match hget key c with Some v => lval_refs v | None => [] end).
  destruct (moved_put held out h a (lval_refs v) old (CVals c) (CVals (hset key v c)) C O) as (M1 & O1 & K1).
  { intros x. cbn [children]. pose proof (occ_hset lval_refs x key v c) as E. unfold old. destruct (hget key c); cbn [occ]; lia. }
  set (h1 := put h a (1, CVals (hset key v c))) in *.
  destruct (owned_alone h [] a (lval_refs v ++ out) _ C O) as (_ & N & I0).
  assert (P1 : paired (lvalR n h1) c m).
  { eapply entries_kept; [|exact P]. intros x Hx. apply K1. eapply (owned_child h [] a); [exact C|exact O|exact Hx]. }
  assert (W1 : lvalR n h1 v w).
  { eapply lval_kept; [|exact W]. intros x Hx. apply K1. intros ->. apply N, in_or_app. left. exact Hx. }
  assert (PS : paired (lvalR n h1) (hset key v c) (hset key w m)) by (apply paired_hset; assumption).
  pose proof (paired_hget _ key _ _ P1) as G.
  destruct (hget key c) as [v0|] eqn:E0.
  - destruct (hget key m) as [w0|]; [|destruct G].
    assert (C1 : counted h1 (lval_refs v0 ++ a :: out)).
    { destruct M1 as (C1 & _). revert C1. apply counted_occ. intros x. unfold old. cbn [app occ]. rewrite !occ_app. cbn [occ]. lia. }
    destruct (drop_lval_spec held n h1 (a :: out) v0 w0 C1 G) as (h2 & E2 & M2).
    exists h2. split; [exact E2|].
    assert (O2 : owned h2 a (CVals (hset key v c))) by (eapply owned_stays; [exact C1|exact HH|exact O1|exact M2]).
    split; [|split; [exact O2|]].
    + eapply moved_trans; [exact M1|]. apply (moved_frame held out [a]) in M2. cbn [app] in M2.
      revert M2. apply moved_occ; intros x; unfold old; rewrite ?occ_app; cbn [occ]; lia.
    + assert (KA : kept h1 h2 a) by (destruct M2 as (_ & K & _); apply K; left; reflexivity).
      eapply entries_kept; [|exact PS]. intros x Hx. eapply kept_child; [exact KA|apply owned_content, O1|exact Hx].
  - exists h1. split; [reflexivity|]. split; [exact M1|]. split; [exact O1|exact PS].
Qed.

Lemma place_spec h out p : counted h out ->
  exists h' b, place alloc h p = (h', at_addr b p) /\ moved out h [] h' (addrs (at_addr b p)) /\ param_at h' (at_addr b p) /\ extends h h'.
Proof.
  intros C. unfold place. destruct (texts p) as [|[x s] r] eqn:T.
  - exists h, 0. assert (at_addr 0 p = p) as -> by (destruct p as [q|q|q|q|q|q|q]; try reflexivity; destruct q; try reflexivity; discriminate).
    split; [reflexivity|]. unfold param_at, addrs. rewrite T. split; [apply moved_refl; exact C|]. split; [constructor|]. intros y w E; exact E.
  - destruct (moved_new held alloc fresh out h (CText s) [] C) as (M & O & X & _).
    destruct (new alloc h (CText s)) as [h' b]. cbn [fst snd] in M, O, X. exists h', b. split; [reflexivity|].
    assert (texts (at_addr b p) = [(b, s)]) as T'.
    { destruct p as [q|q|q|q|q|q|q]; try discriminate T; (destruct q as [[y z]| |]; cbn [texts] in T; try discriminate T; injection T as _ -> _; reflexivity). }
    unfold param_at, addrs. rewrite T'. split; [exact M|]. split; [|exact X].
    constructor; [apply owned_content, O|constructor].
Qed.

(** a new parameter *)
Lemma set_param_spec h out a c m key p : counted h (a :: out) -> incl held out -> owned h a (CVals c) -> paired (lvalR n h) c m ->
  exists h1 h' b, place alloc h p = (h1, at_addr b p) /\ hput n h1 a c key (LParam (bare (at_addr b p))) = Ok h' /\
    moved out h [a] h' [a] /\ vals_at h' (list_at n h') a (hset key (LParam (at_addr b p)) m).
Proof.
  intros C HH O P. destruct (place_spec h (a :: out) p C) as (h1 & b & E1 & M1 & A1 & X1).
  assert (O1 : owned h1 a (CVals c)) by (eapply (owned_stays held h [] a out); [exact C|exact HH|exact O|exact M1]).
  destruct (hput_spec h1 out a c m key (LParam (bare (at_addr b p))) (LParam (at_addr b p))) as (h2 & E2 & M2 & O2 & P2).
  - cbn [lval_refs]. rewrite addrs_bare. destruct M1 as (C1 & _). revert C1. apply counted_occ. intros x. cbn [app occ]. rewrite !occ_app. cbn [occ]. lia.
  - exact HH.
  - exact O1.
  - eapply entries_kept; [|exact P]. intros x _. apply extends_kept; exact X1.
  - split; [reflexivity|exact A1].
  - exists h1, h2, b. split; [exact E1|]. split; [exact E2|]. split.
    + cbn [lval_refs] in M2. rewrite addrs_bare in M2. apply (moved_frame held out [a]) in M1. cbn [app] in M1.
      eapply moved_trans; [exact M1|]. revert M2. apply moved_occ; intros x; rewrite ?occ_app; cbn [occ]; lia.
    + eexists. split; [apply owned_content, O2|exact P2].
Qed.

(** the value of a key, from the declared value if it has none *)
Definition mut_vals m (o : option param) (key : name) : hmap (lval (mlistT n)) * option param :=
  match hget key m with
  | Some (LParam p) => (m, Some p)
  | _ => match o with Some p => (hset key (LParam p) m, Some p) | None => (m, None) end
  end.

Lemma hparam_mut_spec h out a c m o key : counted h (a :: out) -> incl held out -> owned h a (CVals c) -> paired (lvalR n h) c m ->
  (forall p, o = Some p -> param_at h p /\ incl (addrs p) held) ->
  exists h' c', hparam_mut n h a c o key = Ok (h', c', option_map bare (snd (mut_vals m o key))) /\
    moved out h [a] h' [a] /\ owned h' a (CVals c') /\ paired (lvalR n h') c' (fst (mut_vals m o key)).
Proof.
  intros C HH O P D. unfold hparam_mut, mut_vals. pose proof (paired_hget _ key _ _ P) as G.
  assert (Same : exists h' c', Ok (h, c, (None : option param)) = Ok (h', c', None) /\ moved out h [a] h' [a] /\ owned h' a (CVals c') /\ paired (lvalR n h') c' m).
  { exists h, c. split; [reflexivity|]. split; [apply moved_refl; exact C|]. split; assumption. }
  assert (Copy : forall p, o = Some p -> exists h' c', (h1 <- mfold share (addrs p) h ; h2 <- hput n h1 a c key (LParam (bare p)) ; Ok (h2, hset key (LParam (bare p)) c, Some (bare p))) = Ok (h', c', Some (bare p)) /\
     moved out h [a] h' [a] /\ owned h' a (CVals c') /\ paired (lvalR n h') c' (hset key (LParam p) m)).
  { intros p Hp. destruct (D p Hp) as [A I]. destruct (moved_share held (a :: out) h (addrs p) C I (incl_more _ _ _ HH)) as (h1 & E1 & M1 & SC).
    rewrite E1. cbn [bind].
    assert (X1 : extends h h1) by (intros y w E; rewrite SC; exact E).
    assert (O1 : owned h1 a (CVals c)) by (eapply (owned_stays held h [] a out); [exact C|exact HH|exact O|exact M1]).
    destruct (hput_spec h1 out a c m key (LParam (bare p)) (LParam p)) as (h2 & E2 & M2 & O2 & P2).
    - cbn [lval_refs]. rewrite addrs_bare. destruct M1 as (C1 & _). revert C1. apply counted_occ. intros x. cbn [app occ]. rewrite !occ_app. cbn [occ]. lia.
    - exact HH.
    - exact O1.
    - eapply entries_kept; [|exact P]. intros x _. apply extends_kept; exact X1.
    - split; [reflexivity|]. eapply param_kept; [|exact A]. intros x _. apply extends_kept; exact X1.
    - rewrite E2. cbn [bind]. exists h2, (hset key (LParam (bare p)) c). split; [reflexivity|]. split; [|split; assumption].
      cbn [lval_refs] in M2. rewrite addrs_bare in M2. apply (moved_frame held out [a]) in M1. cbn [app] in M1.
      eapply moved_trans; [exact M1|]. revert M2. apply moved_occ; intros x; rewrite ?occ_app; cbn [occ]; lia. }
  destruct (hget key c) as [v|] eqn:E1, (hget key m) as [w|] eqn:E2; try destruct G.
  - unfold lvalR in G. destruct v as [p|t|[l|]], w as [q|u|[l'|]]; cbn [lval_at] in G; try destruct G as [].
    + subst p. exists h, c. cbn [fst snd option_map]. split; [reflexivity|]. split; [apply moved_refl; exact C|]. split; assumption.
    + destruct o as [p|]; cbn [fst snd option_map]; [apply Copy; reflexivity|exact Same].
    + destruct o as [p|]; cbn [fst snd option_map]; [apply Copy; reflexivity|exact Same].
    + destruct o as [p|]; cbn [fst snd option_map]; [apply Copy; reflexivity|exact Same].
  - destruct o as [p|]; cbn [fst snd option_map]; [apply Copy; reflexivity|exact Same].
Qed.
Lemma mut_vals_there m o key p : snd (mut_vals m o key) = Some p -> hget key (fst (mut_vals m o key)) = Some (LParam p).
Proof.
  unfold mut_vals. destruct (hget key m) as [[q|t|l]|] eqn:E; cbn [fst snd]; try (intros H; apply Some_inj in H as <-; exact E);
    destruct o as [q|]; cbn [fst snd]; try discriminate; intros H; apply Some_inj in H as <-; apply hget_hset_same.
Qed.

Lemma hoverwrite_spec h out t txt p : counted h (addrs p ++ out) -> param_at h p -> type_of p = t ->
  exists h' b, hoverwrite alloc h t txt (bare p) = Ok (h', bare (overwrite t b txt p)) /\
    moved out h (addrs p) h' (addrs (overwrite t b txt p)) /\ param_at h' (overwrite t b txt p).
Proof.
  assert (Same : forall q, bare q = q -> texts q = [] -> counted h (addrs q ++ out) -> param_at h q -> exists h' (b : Z), Ok (h, q) = Ok (h', q) /\ moved out h (addrs q) h' (addrs q) /\ param_at h' q).
  { intros q _ _ C A. exists h, 0. split; [reflexivity|]. split; [apply moved_refl; exact C|exact A]. }
  assert (Text : forall x s, counted h (x :: out) -> content h x = Some (CText s) -> exists h1 b v h2, make_mut alloc h x = Ok (h1, b, v) /\ h2 = put h1 b (1, CText txt) /\ moved out h [x] h2 [b] /\ owned h2 b (CText txt)).
  { intros x s C E. destruct (make_mut_spec held alloc fresh out h x _ C E) as (h1 & b & v' & E' & V & M & O & X).
    assert (v' = CText s) as -> by (destruct V; assumption).
    destruct (moved_put held out h1 b [] [] (CText s) (CText txt)) as (M2 & O2 & _); [destruct M as (C1 & _); exact C1|exact O|reflexivity|].
    exists h1, b, (CText s), (put h1 b (1, CText txt)). split; [exact E'|]. split; [reflexivity|]. split; [eapply moved_trans; eassumption|exact O2]. }
  intros C A <-. destruct p as [q|q|q|q|q|q|q]; cbn [type_of overwrite];
    try (apply Same; [reflexivity|reflexivity|exact C|exact A]);
    (destruct q as [x| |]; [|apply Same; [reflexivity|reflexivity|exact C|exact A] ..]).
  - unfold param_at in A. cbn [texts] in A. apply Forall_inv in A. cbn beta in A. destruct x as [x s]. cbn [fst snd] in A.
    destruct (Text x s C A) as (h1 & b & v & h2 & E1 & E2 & M & O). exists h2, b. cbn [hoverwrite bare fst]. rewrite E1. cbn [bind]. rewrite <- E2.
    split; [reflexivity|]. split; [exact M|]. constructor; [apply owned_content, O|constructor].
  - unfold param_at in A. cbn [texts] in A. apply Forall_inv in A. cbn beta in A. destruct x as [x s]. cbn [fst snd] in A.
    destruct (Text x s C A) as (h1 & b & v & h2 & E1 & E2 & M & O). exists h2, b. cbn [hoverwrite bare fst]. rewrite E1. cbn [bind]. rewrite <- E2.
    split; [reflexivity|]. split; [exact M|]. constructor; [apply owned_content, O|constructor].
  - exists h, 0. split; [reflexivity|]. split; [apply moved_refl; exact C|constructor].
  - unfold param_at in A. cbn [texts] in A. apply Forall_inv in A. cbn beta in A. destruct x as [x s]. cbn [fst snd] in A.
    destruct (Text x s C A) as (h1 & b & v & h2 & E1 & E2 & M & O). exists h2, b. cbn [hoverwrite bare fst]. rewrite E1. cbn [bind]. rewrite <- E2.
    split; [reflexivity|]. split; [exact M|]. constructor; [apply owned_content, O|constructor].
Qed.

Definition write_vals m (o : option param) (key : name) (t : param_type) (b : Z) (txt : list Z) : hmap (lval (mlistT n)) * bool :=
  match mut_vals m o key with
  | (m, Some p) => if eqb_type (type_of p) t then (hset key (LParam (overwrite t b txt p)) m, true) else (m, false)
  | (m, None) => (m, false)
  end.

Lemma hwrite_spec h out a c m o key t txt : counted h (a :: out) -> incl held out -> owned h a (CVals c) -> paired (lvalR n h) c m ->
  (forall p, o = Some p -> param_at h p /\ incl (addrs p) held) ->
  exists h' b, hwrite alloc n h a c o key t txt = Ok (h', snd (write_vals m o key t b txt)) /\
    moved out h [a] h' [a] /\ vals_at h' (list_at n h') a (fst (write_vals m o key t b txt)).
Proof.
  intros C HH O P D. destruct (hparam_mut_spec h out a c m o key C HH O P D) as (h1 & c1 & E1 & M1 & O1 & P1).
  unfold hwrite. rewrite E1. cbn [bind]. unfold write_vals. pose proof (mut_vals_there m o key) as T.
  destruct (mut_vals m o key) as [m1 [p|]] eqn:E0; cbn [fst snd option_map] in *.
  2: { exists h1, 0. split; [reflexivity|]. split; [exact M1|]. exists c1. split; [apply owned_content, O1|exact P1]. }
  rewrite type_bare. destruct (eqb_type (type_of p) t) eqn:ET.
  2: { exists h1, 0. split; [reflexivity|]. split; [exact M1|]. exists c1. split; [apply owned_content, O1|exact P1]. }
  specialize (T p eq_refl). assert (TT : type_of p = t) by (apply eqb_type_iff, ET).
  pose proof (paired_hget _ key _ _ P1) as G. rewrite T in G.
  destruct (hget key c1) as [v1|] eqn:G1; [|destruct G]. unfold lvalR in G. destruct v1 as [q1|t1|[l1|]]; cbn [lval_at] in G; try destruct G as [].
  subst q1. rename H0 into A1.
  assert (C1 : counted h1 ((a :: []) ++ out)) by (destruct M1 as (C1 & _); exact C1).
  destruct (moved_put held out h1 a [] (addrs p) (CVals c1) (CVals (hset key (LMil None) c1)) C1 O1) as (M2 & O2 & K2).
  { intros x. cbn [children]. pose proof (occ_hset lval_refs x key (LMil None) c1) as E. rewrite G1 in E. cbn [lval_refs occ] in E. rewrite addrs_bare in E. cbn [occ]. lia. }
  set (h2 := put h1 a (1, CVals (hset key (LMil None) c1))) in *.
  assert (KC : forall x, In x (children (CVals c1)) -> kept h1 h2 x).
  { intros x Hx. apply K2. eapply (owned_child h1 [] a); [exact C1|exact O1|exact Hx]. }
  assert (P2 : paired (lvalR n h2) c1 m1) by (eapply entries_kept; [exact KC|exact P1]).
  assert (A2 : param_at h2 p).
  { eapply param_kept; [|exact A1]. intros x Hx. apply KC. cbn [children]. apply in_flat_map. exists (key, LParam (bare p)).
    split; [apply hget_in, G1|]. cbn [snd lval_refs]. rewrite addrs_bare. exact Hx. }
  assert (C2 : counted h2 (addrs p ++ a :: out)).
  { destruct M2 as (C2 & _). revert C2. apply counted_occ. intros x. cbn [app occ]. rewrite !occ_app. cbn [occ]. lia. }
  destruct (hoverwrite_spec h2 (a :: out) t txt p C2 A2 TT) as (h3 & b & E3 & M3 & A3). rewrite E3. cbn [bind].
  set (q := overwrite t b txt p) in *.
  assert (O3 : owned h3 a (CVals (hset key (LMil None) c1))) by (eapply (owned_stays held); [exact C2|exact HH|exact O2|exact M3]).
  assert (P3 : paired (lvalR n h3) (hset key (LMil None) c1) (hset key (LMil None) m1)).
  { assert (P2' : paired (lvalR n h2) (hset key (LMil None) c1) (hset key (LMil None) m1)) by (apply paired_hset; [exact Logic.I|exact P2]).
    eapply entries_kept; [|exact P2']. intros x Hx. eapply kept_child; [destruct M3 as (_ & K & _); apply K; left; reflexivity|apply owned_content, O2|exact Hx]. }
  assert (C3 : counted h3 ((a :: addrs q) ++ out)).
  { destruct M3 as (C3 & _). revert C3. apply counted_occ. intros x. cbn [app occ]. rewrite !occ_app. cbn [occ]. lia. }
  destruct (moved_put held out h3 a (addrs q) [] (CVals (hset key (LMil None) c1)) (CVals (hset key (LParam (bare q)) c1)) C3 O3) as (M4 & O4 & K4).
  { intros x. cbn [children]. pose proof (occ_hset lval_refs x key (LParam (bare q)) (hset key (LMil None) c1)) as E. rewrite hset_twice, hget_hset_same in E.
    cbn [lval_refs occ] in E. rewrite addrs_bare in E. cbn [occ]. lia. }
  set (h4 := put h3 a (1, CVals (hset key (LParam (bare q)) c1))) in *.
  exists h4, b. split; [reflexivity|]. cbn [fst snd]. change (overwrite t b txt p) with q. split.
  - eapply moved_trans; [exact M1|]. eapply moved_trans; [exact M2|]. eapply moved_trans; [|exact M4].
    apply (moved_frame held out [a]) in M3. revert M3. apply moved_occ; intros x; rewrite ?occ_app; cbn [occ]; lia.
  - exists (hset key (LParam (bare q)) c1). split; [apply owned_content, O4|].
    rewrite <- (hset_twice key (LParam (bare q)) (LMil None) c1), <- (hset_twice key (LParam q) (LMil None) m1).
    apply (paired_hset (lvalR n h4)).
    + split; [reflexivity|]. eapply param_kept; [|exact A3]. intros x Hx. apply K4. intros ->.
      destruct (owned_alone h3 [] a (addrs q ++ out) _ C3 O3) as (_ & N & _). apply N, in_or_app. left. exact Hx.
    + rewrite ?hset_twice. eapply entries_kept; [|exact P3]. intros x Hx. apply K4.
      eapply (owned_child h3 [] a); [exact C3|exact O3|exact Hx].
Qed.

(** taking a list out of a map, and putting it back *)
Lemma hopen_spec h out a c m key (d : defT n) : counted h (a :: out) -> incl held out -> owned h a (CVals c) -> paired (lvalR n h) c m ->
  exists h' l, hopen alloc n h a c key = Ok (h', l) /\ moved out h [a] h' [a; l] /\ owned h' a (CVals (hset key (LMil None) c)) /\
    paired (lvalR n h') (hset key (LMil None) c) (hset key (LMil None) m) /\ list_at n h' l (snd (open_vals m key (empty_list n d))).
Proof.
  intros C HH O P. unfold hopen, open_vals. pose proof (paired_hget _ key _ _ P) as G.
  assert (New : exists h' l, (h1 <- hput n h a c key (LMil None) ; Ok (new alloc h1 (CList ([], 0)))) = Ok (h', l) /\ moved out h [a] h' [a; l] /\
     owned h' a (CVals (hset key (LMil None) c)) /\ paired (lvalR n h') (hset key (LMil None) c) (hset key (LMil None) m) /\ list_at n h' l (empty_list n d)).
  { destruct (hput_spec h out a c m key (LMil None) (LMil None)) as (h1 & E1 & M1 & O1 & P1); [exact C|exact HH|exact O|exact P|exact Logic.I|].
    rewrite E1. cbn [bind lval_refs] in *. assert (C1 : counted h1 (a :: out)) by (destruct M1 as (C1 & _); exact C1).
    destruct (moved_new held alloc fresh (a :: out) h1 (CList ([], 0)) [] C1) as (M2 & O2 & X2 & _).
    destruct (new alloc h1 (CList ([], 0))) as [h2 l]. cbn [fst snd] in M2, O2, X2. exists h2, l. split; [reflexivity|].
    split; [|split; [|split]].
    - eapply moved_trans; [exact M1|]. apply (moved_frame held out [a]) in M2. revert M2. apply moved_occ; intros x; rewrite ?occ_app; cbn [children flat_map fst app occ]; lia.
    - eapply (owned_stays held h1 [] a out); [exact C1|exact HH|exact O1|exact M2].
    - eapply entries_kept; [|exact P1]. intros x _. apply extends_kept. exact X2.
    - destruct n as [|n']; [destruct d|]. cbn [empty_list list_at fst snd]. split; [constructor|]. exists []. split; [apply owned_content, O2|constructor]. }
  destruct (hget key c) as [v|] eqn:E1, (hget key m) as [w|] eqn:E2; try destruct G; [|exact New].
  unfold lvalR in G. destruct v as [p|t|[l|]], w as [q|u|[l'|]]; cbn [lval_at] in G; try destruct G as []; cbn [fst snd]; try exact New.
  assert (C1 : counted h ((a :: []) ++ out)) by exact C.
  destruct (moved_put held out h a [] [l] (CVals c) (CVals (hset key (LMil None) c)) C1 O) as (M2 & O2 & K2).
  { intros x. cbn [children]. pose proof (occ_hset lval_refs x key (LMil None) c) as E. rewrite E1 in E. cbn [lval_refs occ] in *. lia. }
  set (h2 := put h a (1, CVals (hset key (LMil None) c))) in *. exists h2, l. split; [reflexivity|]. split; [exact M2|]. split; [exact O2|].
  assert (KC : forall x, In x (children (CVals c)) -> kept h h2 x).
  { intros x Hx. apply K2. eapply (owned_child h [] a); [exact C1|exact O|exact Hx]. }
  split.
  - apply (paired_hset (lvalR n h2)); [exact Logic.I|]. eapply entries_kept; [exact KC|exact P].
  - eapply list_kept; [|exact G]. apply KC. cbn [children]. apply in_flat_map. exists (key, LMil (Some l)). split; [apply hget_in, E1|left; reflexivity].
Qed.

Lemma hclose_spec h out a c m key l l' : counted h ([a; l] ++ out) -> owned h a (CVals (hset key (LMil None) c)) ->
  paired (lvalR n h) (hset key (LMil None) c) (hset key (LMil None) m) -> list_at n h l l' ->
  moved out h [a; l] (hclose h a c key l) [a] /\ vals_at (hclose h a c key l) (list_at n (hclose h a c key l)) a (hset key (LMil (Some l')) m).
Proof.
  intros C O P L. destruct (moved_put held out h a [l] [] (CVals (hset key (LMil None) c)) (CVals (hset key (LMil (Some l)) c)) C O) as (M & O' & K).
  { intros x. cbn [children]. pose proof (occ_hset lval_refs x key (LMil (Some l)) (hset key (LMil None) c)) as E. rewrite hset_twice, hget_hset_same in E. cbn [lval_refs occ] in *. lia. }
  unfold hclose. set (h' := put h a (1, CVals (hset key (LMil (Some l)) c))) in *. split; [exact M|].
  exists (hset key (LMil (Some l)) c). split; [apply owned_content, O'|].
  rewrite <- (hset_twice key (LMil (Some l)) (LMil None) c), <- (hset_twice key (LMil (Some l')) (LMil None) m).
  apply (paired_hset (lvalR n h')).
  - unfold lvalR. cbn [lval_at]. eapply list_kept; [|exact L]. apply K. intros ->.
    destruct (owned_alone h [] a (a :: out) _ C O) as (_ & N & _). apply N. left. reflexivity.
  - rewrite ?hset_twice. eapply entries_kept; [|exact P]. intros x Hx. apply K. eapply (owned_child h [] a); [exact C|exact O|exact Hx].
Qed.

(** a list that is about to change *)
Lemma own_inner_spec h out a l (d : defT n) : counted h (a :: out) -> list_at n h a l ->
  exists h' b c l0, own_list alloc h a = Ok (h', b, c) /\ moved out h [a] h' [b] /\ list_at n h' b l0 /\ fresher n l l0 /\ extends h h'.
Proof.
  destruct n as [|n']; [destruct d|]. intros C L. destruct (own_list_spec n' h out a l C L) as (h' & b & c & E & M & O & P & ND & K & X).
  exists h', b, c, (fst l, snd c). split; [exact E|]. split; [exact M|]. split; [|split; [|exact X]].
  - cbn [list_at fst snd]. split; [exact ND|]. exists (fst c). split; [rewrite (owned_content _ _ _ O); destruct c; reflexivity|exact P].
  - cbn [fresher fst snd]. split; [destruct K as [->|K]; [left; reflexivity|right; exact K]|]. apply paired_refl, fresher_item_refl, fresher_refl.
Qed.
End Vals.
End Run.
