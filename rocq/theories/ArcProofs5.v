(** Proofs for C60, continued: lists in lists, documents, programs. *)
From Coq Require Import Sorting.Permutation.
From Verif Require Import Base StringCompactionModel LinkedModel LinkedSpec DocModel JsonModel ValidModel IntfModel.
From Verif Require Import StringCompactionProofs LinkedProofs DiffProofs DiffProofs3 DiffEditProofs IntfProofs ArcModel ArcSpec ArcProofs ArcProofs2 ArcProofs3 ArcProofs4.

(** the values of the root as values of an item *)
Section Lvals.
Context {L : Type}.
Implicit Types s : hmap (rootsab L).
Lemma hget_lvals key s : hget key (as_lvals s) = option_map as_lval (hget key s).
Proof. unfold as_lvals. induction s as [|[k v] s IH]; [reflexivity|]. cbn [map hget fst snd]. destruct (eqb_bytes k key); [reflexivity|exact IH]. Qed.
Lemma hset_lvals key v s : as_lvals (hset key v s) = hset key (as_lval v) (as_lvals s).
Proof. unfold as_lvals. induction s as [|[k w] s IH]; [reflexivity|]. cbn [map hset fst snd]. destruct (eqb_bytes k key); [reflexivity|]. cbn [map fst snd]. rewrite IH. reflexivity. Qed.
Lemma as_lval_inj (v w : rootsab L) : as_lval v = as_lval w -> v = w.
Proof. destruct v, w; cbn; congruence. Qed.
End Lvals.

Lemma fresher_root_refl n (s : sabun n) : fresher_root s s.
Proof. apply paired_refl, fresher_lval_refl, fresher_refl. Qed.

Lemma paired_back {A B} (R : A -> B -> Prop) id x it : R x it -> forall cc l, paired R (without id cc) (without id l) -> ids cc = ids l ->
  paired R (assign id x cc) (assign id it l).
Proof.
  intros I. induction cc as [|[k y] cc IH]; intros [|[k' w] l] P E; try discriminate; [constructor|].
  cbn [ids map fst] in E. injection E as <- E. cbn [assign map fst without filter] in *. destruct (Z.eqb_spec k id) as [->|NE]; cbn [negb] in P.
  - constructor; [split; [reflexivity|exact I]|]. apply IH; assumption.
  - unfold paired in P. inversion P as [|? ? ? ? P1 P2]; subst. constructor; [exact P1|]. apply IH; assumption.
Qed.

Lemma list_run_item n id o d (l : mlist (item (mlistT n))) : list_run (S n) (OnItem id o) d l =
  match lookup id (fst l) with
  | None => Ok (l, false)
  | Some it => '(it, b) <- item_do it d o ; Ok ((assign id it (fst l), snd l), b)
  end.
Proof. reflexivity. Qed.
Lemma list_run_into n id key s d (l : mlist (item (mlistT n))) : list_run (S n) (Into id key s) d l =
  match lookup id (fst l) with
  | None => Ok (l, false)
  | Some it =>
      match item_open it d key (empty_list n) with
      | (it, None) => Ok (l, false)
      | (it, Some (d', l')) =>
          '(l', b) <- list_run n s d' l' ;
          Ok ((assign id (Item (hset key (LMil (Some l')) (it_values it)) (it_refs it)) (fst l), snd l), b)
      end
  end.
Proof. reflexivity. Qed.

Section Run.
Variable held : list Z.
Variable alloc : Z -> list (Z * (Z * cell)) -> Z.
Hypothesis fresh : fresh_alloc alloc.
Notation moved := (moved held).

(** an item is taken out of a list *)
Lemma take_item n h out a (c : mlist (Z * Z)) l id x it : counted h (a :: out) -> owned h a (CList c) ->
  paired (itemR n h) (fst c) l -> NoDup (ids l) -> lookup id (fst c) = Some x -> lookup id l = Some it ->
  let h' := put h a (1, CList (without id (fst c), snd c)) in
  moved out h [a] h' [a; fst x; snd x] /\ owned h' a (CList (without id (fst c), snd c)) /\
  paired (itemR n h') (without id (fst c)) (without id l) /\ itemR n h' x it.
Proof.
  intros C O P ND Ec El. cbn zeta.
  assert (NDc : NoDup (ids (fst c))) by (rewrite (paired_ids _ _ _ P); exact ND).
  pose proof (move_perm id (fst c) x Ec NDc) as PM.
  destruct (moved_put held out h a [] [fst x; snd x] (CList c) (CList (without id (fst c), snd c)) C O) as (M & O' & K).
  { intros y. cbn [children fst]. rewrite (occ_flat_perm (fun e : Z * (Z * Z) => [fst (snd e); snd (snd e)]) y _ _ PM). cbn [flat_map snd app occ]. lia. }
  split; [exact M|]. split; [exact O'|].
  assert (KC : forall y, In y (children (CList c)) -> kept h (put h a (1, CList (without id (fst c), snd c))) y).
  { intros y Hy. apply K. eapply (owned_child h [] a); [exact C|exact O|exact Hy]. }
  split.
  - apply paired_without. apply (items_kept n h _ c); [exact KC|exact P].
  - pose proof (paired_lookup _ id _ _ P) as G. rewrite Ec, El in G.
    assert (In (id, x) (fst c)) as Hin by (apply lookup_iff; assumption).
    eapply item_kept; [| |exact G]; apply KC; cbn [children]; apply in_flat_map; exists (id, x); (split; [exact Hin|]); [left|right; left]; reflexivity.
Qed.

(** and put back *)
Lemma back_item n h out a (c : mlist (Z * Z)) l id x x0 it : counted h ([a; fst x; snd x] ++ out) -> owned h a (CList (without id (fst c), snd c)) ->
  paired (itemR n h) (without id (fst c)) (without id l) -> NoDup (ids l) -> ids (fst c) = ids l -> lookup id (fst c) = Some x0 -> itemR n h x it ->
  let h' := put h a (1, CList (assign id x (fst c), snd c)) in
  moved out h [a; fst x; snd x] h' [a] /\ list_at (S n) h' a (assign id it l, snd c).
Proof.
  intros C O P ND EI Ec I. cbn zeta.
  assert (NDc : NoDup (ids (fst c))) by (rewrite EI; exact ND).
  destruct (lookup_split id (fst c) x0 Ec NDc) as (c1 & c2 & E0 & N1 & N2 & As & W).
  destruct (moved_put held out h a [fst x; snd x] [] (CList (without id (fst c), snd c)) (CList (assign id x (fst c), snd c)) C O) as (M & O' & K).
  { intros y. cbn [children fst]. rewrite As, W, !flat_map_app, !occ_app. cbn [flat_map snd app occ]. lia. }
  split; [exact M|].
  assert (KC : forall y, y <> a -> kept h (put h a (1, CList (assign id x (fst c), snd c))) y) by exact K.
  set (h' := put h a (1, CList (assign id x (fst c), snd c))) in *.
  destruct (owned_alone h [] a ([fst x; snd x] ++ out) _ C O) as (_ & NA & _).
  assert (I' : itemR n h' x it).
  { eapply item_kept; [| |exact I]; apply KC; intros E; apply NA; rewrite <- E; [left|right; left]; reflexivity. }
  assert (P' : paired (itemR n h') (without id (fst c)) (without id l)).
  { apply (items_kept n h h' (without id (fst c), snd c)); [|exact P]. intros y Hy. apply KC. eapply (owned_child h [] a); [exact C|exact O|exact Hy]. }
  apply owned_list with (assign id x (fst c), snd c); [exact O'| |reflexivity|cbn [fst]; rewrite ids_assign'; exact ND].
  cbn [fst]. apply paired_back; assumption.
Qed.

Lemma hlist_run_spec : forall n s d h a l out, counted h (a :: out) -> incl held out -> list_at n h a l -> def_at n h held d ->
  exists l0 s', fresher n l l0 /\ unaddr_step s' = unaddr_step s /\
    list_answer (list_run n s' d l0) (hlist_run alloc n s d h a) (fun h' a' l' => moved out h [a] h' [a'] /\ list_at n h' a' l').
Proof.
  induction n as [|n IH]; intros s d h a l out C HH L D; [destruct L|].
  change (mlist (item (mlistT n))) in l. destruct l as [li kk].
  destruct (own_list_spec held alloc fresh n h out a (li, kk) C L) as (h1 & b & c & E1 & M1 & O1 & P1 & ND & K1 & X1). cbn [fst snd] in P1, ND, K1.
  assert (C1 : counted h1 (b :: out)) by (destruct M1 as (C1 & _); exact C1).
  assert (FI : forall it : item (mlistT n), fresher_item (fresher n) it it) by apply fresher_item_refl, fresher_refl.
  assert (F1 : fresher (S n) (li, kk) (li, snd c)).
  { cbn [fresher fst snd]. split; [destruct K1 as [->|K]; [left; reflexivity|right; exact K]|]. apply paired_refl, FI. }
  assert (L1 : list_at (S n) h1 b (li, snd c)) by (apply owned_list with c; [exact O1|exact P1|reflexivity|exact ND]).
  assert (D1 : def_at (S n) h1 held d) by (eapply def_kept; [|exact D]; intros x _; apply extends_kept; exact X1).
  pose proof (paired_ids _ _ _ P1) as EI.
  cbn [hlist_run]. rewrite E1. cbn [bind].
  assert (Stay : forall s', unaddr_step s' = unaddr_step s -> list_run (S n) s' d (li, snd c) = Ok ((li, snd c), false) ->
     exists l0 s', fresher (S n) (li, kk) l0 /\ unaddr_step s' = unaddr_step s /\
       list_answer (list_run (S n) s' d l0) (Ok (h1, b, false)) (fun h' a' l' => moved out h [a] h' [a'] /\ list_at (S n) h' a' l')).
  { intros s' U E. exists (li, snd c), s'. split; [exact F1|]. split; [exact U|]. rewrite E. exists h1, b. split; [reflexivity|]. split; [exact M1|exact L1]. }
  destruct s as [o|id o|id key s].
  - (* OnList *)
    exists (li, snd c), (OnList o). split; [exact F1|]. split; [reflexivity|].
    pose proof (hlist_do_spec held alloc fresh n h1 out b c (li, snd c) o C1 HH O1 P1 eq_refl ND) as H.
    match type of H with match ?y with _ => _ end => set (x := y) in H end.
    change (list_run (S n) (OnList o) d (li, snd c)) with x.
    destruct x as [[l' r]| |]; cbn [list_answer]; [|destruct H|rewrite H; reflexivity].
    destruct H as (h' & E' & M' & L'). rewrite E'. cbn [bind]. exists h', b. split; [reflexivity|]. split; [eapply moved_trans; eassumption|exact L'].
  - (* OnItem *)
    pose proof (paired_lookup _ id _ _ P1) as G.
    destruct (lookup id (fst c)) as [[va ra]|] eqn:Ec, (lookup id li) as [it|] eqn:El; try (exfalso; exact G).
    2: { apply (Stay (OnItem id o) eq_refl). rewrite list_run_item. cbn [fst]. rewrite El. reflexivity. }
    destruct (take_item n h1 out b c li id (va, ra) it C1 O1 P1 ND Ec El) as (M2 & O2 & P2 & I2).
    set (h2 := put h1 b (1, CList (without id (fst c), snd c))) in *. cbn [fst snd] in M2.
    assert (C2 : counted h2 ([va; ra] ++ b :: out)) by (destruct M2 as (C2 & _); revert C2; apply counted_occ; intros x; cbn [app occ]; lia).
    assert (KH : forall x, In x held -> kept h1 h2 x) by (intros x Hx; destruct M2 as (_ & K & _); apply K, HH, Hx).
    destruct (hitem_do_spec held alloc fresh n h2 (b :: out) va ra it d o C2 (incl_more _ _ _ HH) I2) as (it0 & o' & F0 & U & A).
    { eapply def_kept; [exact KH|exact D1]. }
    exists (assign id it0 li, snd c), (OnItem id o'). split; [|split; [cbn [unaddr_step]; rewrite U; reflexivity|]].
    { destruct F1 as [F1 _]. split; [exact F1|]. cbn [fst]. eapply paired_assign_one; [exact FI|exact ND|exact El|exact F0]. }
    rewrite list_run_item. cbn [fst snd]. rewrite lookup_assign, Z.eqb_refl, (lookup_has _ _ _ El). cbn [andb].
    unfold item_answer in A. destruct (item_do it0 d o') as [[it' r]| |]; cbn [bind list_answer]; [|destruct A|rewrite A; reflexivity].
    destruct A as (h3 & x' & E3 & M3 & I3). rewrite E3. cbn [bind].
    assert (O3 : owned h3 b (CList (without id (fst c), snd c))) by (eapply (owned_stays held h2); [exact C2|exact HH|exact O2|exact M3]).
    assert (C3 : counted h3 ([b; fst x'; snd x'] ++ out)) by (destruct M3 as (C3 & _); revert C3; apply counted_occ; intros x; cbn [app occ]; lia).
    assert (P3 : paired (itemR n h3) (without id (fst c)) (without id li)).
    { apply (items_kept n h2 h3 (without id (fst c), snd c)); [|exact P2]. intros x Hx. eapply kept_child; [destruct M3 as (_ & K & _); apply K; left; reflexivity|apply owned_content, O2|exact Hx]. }
    destruct (back_item n h3 out b c li id x' _ it' C3 O3 P3 ND EI Ec I3) as (M4 & L4).
    eexists _, b. split; [reflexivity|]. rewrite assign_twice. split; [|exact L4].
    eapply moved_trans; [exact M1|]. eapply moved_trans; [exact M2|]. eapply moved_trans; [|exact M4].
    apply (moved_frame held out [b]) in M3. revert M3. apply moved_occ; intros x; rewrite ?occ_app; cbn [occ]; lia.
  - (* Into *)
    pose proof (paired_lookup _ id _ _ P1) as G.
    destruct (lookup id (fst c)) as [[va ra]|] eqn:Ec, (lookup id li) as [it|] eqn:El; try (exfalso; exact G).
    2: { apply (Stay (Into id key s) eq_refl). rewrite list_run_into. cbn [fst]. rewrite El. reflexivity. }
    destruct (hget key (ld_members d)) as [[j [p0 vt|t0|d' u]]|] eqn:Ed;
      try (apply (Stay (Into id key s) eq_refl); rewrite list_run_into; cbn [fst]; rewrite El; unfold item_open; rewrite Ed; reflexivity).
    destruct (take_item n h1 out b c li id (va, ra) it C1 O1 P1 ND Ec El) as (M2 & O2 & P2 & I2).
    set (h2 := put h1 b (1, CList (without id (fst c), snd c))) in *. cbn [fst snd] in M2.
    assert (HB : incl held (b :: out)) by apply incl_more, HH.
    assert (HR : incl held (ra :: b :: out)) by apply incl_more, HB.
    assert (C2 : counted h2 (va :: ra :: b :: out)) by (destruct M2 as (C2 & _); revert C2; apply counted_occ; intros x; cbn [app occ]; lia).
    pose proof I2 as [V2 R2]. cbn [fst snd] in V2, R2.
    destruct (own_vals_spec held alloc fresh n h2 (ra :: b :: out) va _ C2 V2) as (h3 & v3 & m & E3 & M3 & O3 & P3 & X3). rewrite E3. cbn [bind].
    assert (C3 : counted h3 (v3 :: ra :: b :: out)) by (destruct M3 as (C3 & _); exact C3).
    destruct (hopen_spec held alloc fresh n h3 (ra :: b :: out) v3 m _ key d' C3 HR O3 P3) as (h4 & la & E4 & M4 & O4 & P4 & L4). rewrite E4. cbn [bind].
    assert (C4 : counted h4 (la :: v3 :: ra :: b :: out)) by (destruct M4 as (C4 & _); revert C4; apply counted_occ; intros x; cbn [app occ]; lia).
    assert (HV : incl held (v3 :: ra :: b :: out)) by apply incl_more, HR.
    assert (M24 : moved (ra :: b :: out) h2 [va] h4 [v3; la]) by (eapply moved_trans; [exact M3|exact M4]).
    assert (D4 : def_at n h4 held d').
    { assert (def_at (S n) h4 held d) as [_ B].
      { eapply def_kept; [|exact D1]. intros x Hx. eapply kept_trans; [destruct M2 as (_ & K & _); apply K, HH, Hx|]. destruct M24 as (_ & K & _). apply K, HR, Hx. }
      eapply B. exact Ed. }
    destruct (IH s d' h4 la _ (v3 :: ra :: b :: out) C4 HV L4 D4) as (l0 & s' & F0 & U & A).
    destruct (open_fresher n d' (it_values it) key l0 F0) as (m0 & Fm & S0 & W0 & _).
    exists (assign id (Item m0 (it_refs it)) li, snd c), (Into id key s'). split; [|split; [cbn [unaddr_step]; rewrite U; reflexivity|]].
    { destruct F1 as [F1 _]. split; [exact F1|]. cbn [fst]. eapply paired_assign_one; [exact FI|exact ND|exact El|]. split; [exact Fm|reflexivity]. }
    assert (list_run (S n) (Into id key s') d (assign id (Item m0 (it_refs it)) li, snd c) =
       ('(l', r) <- list_run n s' d' l0 ; Ok ((assign id (Item (hset key (LMil (Some l')) (it_values it)) (it_refs it)) li, snd c), r))) as ->.
    { rewrite list_run_into. cbn [fst snd]. rewrite lookup_assign, Z.eqb_refl, (lookup_has _ _ _ El). cbn [andb]. unfold item_open. rewrite Ed. cbn [it_values it_refs].
      unfold open_vals in S0, W0. destruct (hget key m0) as [[q|t0|[l'|]]|]; cbn [fst snd] in S0, W0; subst l0; cbn [it_values it_refs];
        destruct (list_run n s' d' _) as [[l'' r]| |]; cbn [bind]; try reflexivity; rewrite assign_twice, W0; reflexivity. }
    unfold list_answer in A. destruct (list_run n s' d' l0) as [[l' r]| |]; cbn [bind list_answer]; [|destruct A|rewrite A; reflexivity].
    destruct A as (h5 & l5 & E5 & M5 & L5). rewrite E5. cbn [bind].
    assert (O5 : owned h5 v3 (CVals (hset key (LMil None) m))) by (eapply (owned_stays held h4 [la] v3); [exact C4|exact HR|exact O4|exact M5]).
    assert (C5 : counted h5 ([v3; l5] ++ ra :: b :: out)) by (destruct M5 as (C5 & _); revert C5; apply counted_occ; intros x; cbn [app occ]; lia).
    assert (P5 : paired (lvalR n h5) (hset key (LMil None) m) (hset key (LMil None) (it_values it))).
    { eapply entries_kept; [|exact P4]. intros x Hx. eapply kept_child; [destruct M5 as (_ & K & _); apply K; left; reflexivity|apply owned_content, O4|exact Hx]. }
    destruct (hclose_spec held n h5 (ra :: b :: out) v3 m _ key l5 l' C5 O5 P5 L5) as (M6 & V6).
    set (h6 := hclose h5 v3 m key l5) in *.
    assert (M26 : moved (ra :: b :: out) h2 [va] h6 [v3]).
    { eapply moved_trans; [exact M24|]. eapply moved_trans; [|exact M6].
      apply (moved_frame held (ra :: b :: out) [v3]) in M5. revert M5. apply moved_occ; intros x; rewrite ?occ_app; cbn [occ]; lia. }
    destruct (on_vals held n h2 (b :: out) va ra it h6 v3 _ I2 M26 V6) as (M7 & I7).
    assert (C2' : counted h2 ([va; ra] ++ b :: out)) by exact C2.
    assert (O7 : owned h6 b (CList (without id (fst c), snd c))) by (eapply (owned_stays held h2); [exact C2'|exact HH|exact O2|exact M7]).
    assert (C7 : counted h6 ([b; fst (v3, ra); snd (v3, ra)] ++ out)) by (destruct M7 as (C7 & _); revert C7; apply counted_occ; intros x; cbn [app occ fst snd]; lia).
    assert (P7 : paired (itemR n h6) (without id (fst c)) (without id li)).
    { apply (items_kept n h2 h6 (without id (fst c), snd c)); [|exact P2]. intros x Hx. eapply kept_child; [destruct M7 as (_ & K & _); apply K; left; reflexivity|apply owned_content, O2|exact Hx]. }
    destruct (back_item n h6 out b c li id (v3, ra) _ _ C7 O7 P7 ND EI Ec I7) as (M8 & L8).
    eexists _, b. split; [reflexivity|]. split; [|exact L8].
    eapply moved_trans; [exact M1|]. eapply moved_trans; [exact M2|]. eapply moved_trans; [|exact M8].
    apply (moved_frame held out [b]) in M7. revert M7. apply moved_occ; intros x; rewrite ?occ_app; cbn [occ fst snd]; lia.
Qed.

(* ------------------------------------------------------------------ *)
(** * Documents *)

Definition root_answer {n} (r : res (sabun n * bool)) (x : res (heap * Z * bool)) (P : heap -> Z -> sabun n -> Prop) : Prop :=
  match r with
  | Ok (s', b) => exists h' y, x = Ok (h', y, b) /\ P h' y s'
  | Err => False
  | Panic => x = Panic
  end.

Lemma open_root n d (s : sabun n) key l0 : fresher n (snd (open_vals (as_lvals s) key (empty_list n d))) l0 ->
  exists s0, fresher_root s s0 /\
    (match hget key s0 with Some (RMut (Some l)) => l | _ => empty_list n d end) = l0 /\
    (forall w, hset key w (match hget key s0 with Some (RMut (Some l)) => s0 | _ => hset key (RMut (Some (empty_list n d))) s0 end) = hset key w s) /\
    (match hget key s0 with Some (RMut (Some l)) => s0 | _ => hset key (RMut (Some (empty_list n d))) s0 end) = hset key (RMut (Some l0)) s.
Proof.
  unfold open_vals. rewrite hget_lvals. destruct (hget key s) as [[p|[l|]]|] eqn:G; cbn [option_map as_lval fst snd]; intros F.
  2: { exists (hset key (RMut (Some l0)) s). split; [|rewrite hget_hset_same; split; [reflexivity|split; [intros w; apply hset_twice|reflexivity]]].
       unfold fresher_root. rewrite hset_lvals. apply paired_hset_one with (LMil (Some l)); [apply fresher_lval_refl, fresher_refl|rewrite hget_lvals, G; reflexivity|exact F]. }
  all: apply fresher_empty in F as ->; exists s; split; [apply fresher_root_refl|]; rewrite G; split; [reflexivity|]; split; [intros w; apply hset_twice|reflexivity].
Qed.

Lemma hroot_run_spec n (def : rootdef n) h a s out o : counted h (a :: out) -> incl held out -> root_at n h a s -> root_def_at h held def ->
  exists s0 o', fresher_root s s0 /\ unaddr_root o' = unaddr_root o /\
    root_answer (root_run def s0 o') (hroot_run alloc def h a o) (fun h' a' s' => moved out h [a] h' [a'] /\ root_at n h' a' s').
Proof.
  intros C HH V [D1 D2]. pose proof (fresher_root_refl n s) as FR. unfold root_at in *.
  destruct (own_vals_spec held alloc fresh n h out a _ C V) as (h1 & b1 & c & E1 & M1 & O1 & P1 & X1).
  assert (C1 : counted h1 (b1 :: out)) by (destruct M1 as (C1 & _); exact C1).
  assert (V1 : vals_at h1 (list_at n h1) b1 (as_lvals s)) by (exists c; split; [apply owned_content, O1|exact P1]).
  destruct o as [key p|key t a0 txt|key a0 len|key|key st]; cbn [hroot_run].
  - (* OSet *)
    assert (Same : forall o, root_run def s o = Ok (s, false) -> unaddr_root o = unaddr_root (OSet key p) -> exists s0 o', fresher_root s s0 /\ unaddr_root o' = unaddr_root (OSet key p) /\
      root_answer (root_run def s0 o') (Ok (h, a, false)) (fun h' a' s' => moved out h [a] h' [a'] /\ vals_at h' (list_at n h') a' (as_lvals s'))).
    { intros o E U. exists s, o. split; [exact FR|]. split; [exact U|]. rewrite E. exists h, a. split; [reflexivity|]. split; [apply moved_refl; exact C|exact V]. }
    destruct (hget key def) as [[id v]|] eqn:G; [|apply (Same (OSet key p)); [cbn [root_run]; unfold root_set; rewrite G; reflexivity|reflexivity]].
    destruct v as [p0 vt| | |d0 u]; try (apply (Same (OSet key p)); [cbn [root_run]; unfold root_set; rewrite G; reflexivity|reflexivity]).
    destruct (verify_set_sabun p0 vt p) eqn:W; [|apply (Same (OSet key p)); [cbn [root_run]; unfold root_set; rewrite G, W; reflexivity|reflexivity]].
    rewrite E1. cbn [bind].
    destruct (set_param_spec held alloc fresh n h1 out b1 c _ key p C1 HH O1 P1) as (h2 & h3 & b & E2 & E3 & M3 & V3). rewrite E2, E3. cbn [bind].
    exists s, (OSet key (at_addr b p)). split; [exact FR|]. split; [cbn [unaddr_root]; rewrite unaddr_at; reflexivity|].
    cbn [root_run]. unfold root_set. rewrite G, verify_at, W. cbn [root_answer].
    exists h3, b1. split.
    { pose proof (paired_hget _ key _ _ P1) as K. rewrite hget_lvals in K. destruct (hget key c) as [v|], (hget key s) as [w|]; cbn [option_map] in K; try (exfalso; exact K); [|reflexivity].
      unfold lvalR in K. destruct v as [q|t|[l|]], w as [q'|[l'|]]; cbn [lval_at as_lval] in K; try (exfalso; exact K); reflexivity. }
    split; [eapply moved_trans; [exact M1|exact M3]|]. rewrite hset_lvals. exact V3.
  - (* OWrite *)
    rewrite E1. cbn [bind].
    destruct (hwrite_spec held alloc fresh n h1 out b1 c _ (root_param_def def key) key t txt C1 HH O1 P1) as (h2 & b & E2 & M2 & V2).
    { intros p. unfold root_param_def. destruct (hget key def) as [[id [p0 vt| | |d0 u]]|] eqn:G; try discriminate.
      intros H. apply Some_inj in H as <-. destruct (D1 _ _ _ _ G) as [A B]. split; [|exact B].
      eapply param_kept; [|exact A]. intros x _. apply extends_kept. exact X1. }
    rewrite E2. cbn [bind]. exists s, (OWrite key t b txt). split; [exact FR|]. split; [reflexivity|].
    assert (exists s', root_run def s (OWrite key t b txt) = Ok (s', snd (write_vals n (as_lvals s) (root_param_def def key) key t b txt)) /\
       as_lvals s' = fst (write_vals n (as_lvals s) (root_param_def def key) key t b txt)) as (s' & -> & ES).
    { cbn [root_run]. unfold root_write, root_param_mut, write_vals, mut_vals, root_param_def. rewrite hget_lvals.
      destruct (hget key s) as [[q|l]|]; cbn [option_map as_lval].
      { destruct (eqb_type (type_of q) t); eexists; (split; [reflexivity|]); cbn [fst snd]; rewrite ?hset_lvals; reflexivity. }
      all: destruct (hget key def) as [[id [p0 vt| | |d0 u]]|]; cbn [fst snd]; try (eexists; split; [reflexivity|reflexivity]);
        (destruct (eqb_type (type_of p0) t); cbn [fst snd]; eexists; (split; [reflexivity|]); rewrite ?hset_lvals; reflexivity). }
    cbn [root_answer]. exists h2, b1. split; [reflexivity|]. split; [eapply moved_trans; [exact M1|exact M2]|]. rewrite ES. exact V2.
  - (* OInitial *)
    rewrite E1. cbn [bind].
    assert (Same : (exists id p vt, hget key def = Some (id, RVParam p vt)) \/ (root_run def s (OInitial key a0 len) = Ok (s, false) /\
       (match hget key def with Some (_, RVParam p _) => let '(h3, q) := place alloc h1 (to_default_value 0 p len) in h4 <- hput n h3 b1 c key (LParam (bare q)) ; Ok (h4, b1, true) | _ => Ok (h1, b1, false) end) = Ok (h1, b1, false))).
    { cbn [root_run]. unfold root_initial. destruct (hget key def) as [[id [p0 vt| | |d0 u]]|]; [left; exists id, p0, vt; reflexivity|right; split; reflexivity ..]. }
    destruct Same as [(id & p0 & vt & G)|[E F]].
    + rewrite G. destruct (set_param_spec held alloc fresh n h1 out b1 c _ key (to_default_value 0 p0 len) C1 HH O1 P1) as (h2 & h3 & b & E2 & E3 & M3 & V3). rewrite E2, E3. cbn [bind].
      exists s, (OInitial key b len). split; [exact FR|]. split; [reflexivity|]. cbn [root_run]. unfold root_initial. rewrite G. cbn [root_answer].
      exists h3, b1. split; [reflexivity|]. split; [eapply moved_trans; [exact M1|exact M3]|]. rewrite hset_lvals. rewrite default_at in V3. exact V3.
    + rewrite F. exists s, (OInitial key a0 len). split; [exact FR|]. split; [reflexivity|]. rewrite E. exists h1, b1. split; [reflexivity|]. split; [exact M1|exact V1].
  - (* OOpen *)
    rewrite E1. cbn [bind].
    destruct (hget key def) as [[id [p0 vt| | |d0 u]]|] eqn:G;
      try (exists s, (OOpen key); split; [exact FR|]; split; [reflexivity|]; cbn [root_run]; unfold root_open; rewrite G; cbn [root_answer is_some]; exists h1, b1; split; [reflexivity|]; split; [exact M1|exact V1]).
    destruct (hopen_spec held alloc fresh n h1 out b1 c _ key d0 C1 HH O1 P1) as (h2 & l & E2 & M2 & O2 & P2 & L2). rewrite E2. cbn [bind].
    assert (C2 : counted h2 (l :: b1 :: out)) by (destruct M2 as (C2 & _); revert C2; apply counted_occ; intros x; cbn [app occ]; lia).
    destruct (own_inner_spec held alloc fresh n h2 (b1 :: out) l _ d0 C2 L2) as (h3 & l3 & c3 & l0 & E3 & M3 & L3 & F3 & X3). rewrite E3. cbn [bind].
    assert (O3 : owned h3 b1 (CVals (hset key (LMil None) c))) by (eapply (owned_stays held h2 [l] b1 out); [exact C2|exact HH|exact O2|exact M3]).
    assert (C3 : counted h3 ([b1; l3] ++ out)) by (destruct M3 as (C3 & _); revert C3; apply counted_occ; intros x; cbn [app occ]; lia).
    assert (P3 : paired (lvalR n h3) (hset key (LMil None) c) (hset key (LMil None) (as_lvals s))).
    { eapply entries_kept; [|exact P2]. intros x _. apply extends_kept. exact X3. }
    destruct (hclose_spec held n h3 out b1 c _ key l3 l0 C3 O3 P3 L3) as (M4 & V4).
    destruct (open_root n d0 s key l0 F3) as (s0 & F0 & S0 & W0 & T0).
    exists s0, (OOpen key). split; [exact F0|]. split; [reflexivity|].
    assert (root_run def s0 (OOpen key) = Ok (hset key (RMut (Some l0)) s, true)) as ->.
    { rewrite <- T0. cbn [root_run]. unfold root_open. rewrite G. destruct (hget key s0) as [[q|[l'|]]|]; cbn [is_some]; reflexivity. }
    cbn [root_answer]. eexists _, b1. split; [reflexivity|]. split; [|rewrite hset_lvals; exact V4].
    eapply moved_trans; [exact M1|]. eapply moved_trans; [exact M2|]. eapply moved_trans; [|exact M4].
    apply (moved_frame held out [b1]) in M3. revert M3. apply moved_occ; intros x; rewrite ?occ_app; cbn [occ]; lia.
  - (* OInto *)
    rewrite E1. cbn [bind].
    destruct (hget key def) as [[id [p0 vt| | |d0 u]]|] eqn:G;
      try (exists s, (OInto key st); split; [exact FR|]; split; [reflexivity|]; cbn [root_run]; unfold root_open; rewrite G; cbn [root_answer]; exists h1, b1; split; [reflexivity|]; split; [exact M1|exact V1]).
    destruct (hopen_spec held alloc fresh n h1 out b1 c _ key d0 C1 HH O1 P1) as (h2 & l & E2 & M2 & O2 & P2 & L2). rewrite E2. cbn [bind].
    assert (C2 : counted h2 (l :: b1 :: out)) by (destruct M2 as (C2 & _); revert C2; apply counted_occ; intros x; cbn [app occ]; lia).
    assert (D : def_at n h2 held d0).
    { eapply def_kept; [|eapply D2; exact G]. intros x Hx. eapply kept_trans; [apply extends_kept; exact X1|]. destruct M2 as (_ & K & _). apply K, HH, Hx. }
    destruct (hlist_run_spec n st d0 h2 l _ (b1 :: out) C2 (incl_more _ _ _ HH) L2 D) as (l0 & st' & F3 & U & A).
    destruct (open_root n d0 s key l0 F3) as (s0 & F0 & S0 & W0 & T0).
    exists s0, (OInto key st'). split; [exact F0|]. split; [cbn [unaddr_root]; rewrite U; reflexivity|].
    assert (root_run def s0 (OInto key st') = ('(l', r) <- list_run n st' d0 l0 ; Ok (hset key (RMut (Some l')) s, r))) as ->.
    { cbn [root_run]. unfold root_open. rewrite G. destruct (hget key s0) as [[q|[l'|]]|]; subst l0; destruct (list_run n st' d0 _) as [[l'' r]| |]; cbn [bind]; try reflexivity; rewrite W0; reflexivity. }
    unfold list_answer in A. destruct (list_run n st' d0 l0) as [[l' r]| |]; cbn [bind root_answer]; [|destruct A|rewrite A; reflexivity].
    destruct A as (h3 & l3 & E3 & M3 & L3). rewrite E3. cbn [bind].
    assert (O3 : owned h3 b1 (CVals (hset key (LMil None) c))) by (eapply (owned_stays held h2 [l] b1 out); [exact C2|exact HH|exact O2|exact M3]).
    assert (C3 : counted h3 ([b1; l3] ++ out)) by (destruct M3 as (C3 & _); revert C3; apply counted_occ; intros x; cbn [app occ]; lia).
    assert (P3 : paired (lvalR n h3) (hset key (LMil None) c) (hset key (LMil None) (as_lvals s))).
    { eapply entries_kept; [|exact P2]. intros x Hx. eapply kept_child; [destruct M3 as (_ & K & _); apply K; left; reflexivity|apply owned_content, O2|exact Hx]. }
    destruct (hclose_spec held n h3 out b1 c _ key l3 l' C3 O3 P3 L3) as (M4 & V4).
    eexists _, b1. split; [reflexivity|]. split; [|rewrite hset_lvals; exact V4].
    eapply moved_trans; [exact M1|]. eapply moved_trans; [exact M2|]. eapply moved_trans; [|exact M4].
    apply (moved_frame held out [b1]) in M3. revert M3. apply moved_occ; intros x; rewrite ?occ_app; cbn [occ]; lia.
Qed.
End Run.
