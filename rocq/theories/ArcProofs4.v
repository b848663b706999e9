(** Proofs for C60, continued: programs over documents in memory. *)
From Coq Require Import Sorting.Permutation.
From Verif Require Import Base StringCompactionModel LinkedModel LinkedSpec DocModel JsonModel ValidModel IntfModel.
From Verif Require Import StringCompactionProofs LinkedProofs DiffProofs DiffProofs3 DiffEditProofs IntfProofs ArcModel ArcSpec ArcProofs ArcProofs2 ArcProofs3.

Lemma unaddr_at b p : unaddr (at_addr b p) = unaddr p.
Proof. destruct p as [x|x|x|x|x|x|x]; try reflexivity; destruct x; reflexivity. Qed.
Lemma verify_at p0 vt b p : verify_set_sabun p0 vt (at_addr b p) = verify_set_sabun p0 vt p.
Proof. destruct p as [x|x|x|x|x|x|x]; try reflexivity; destruct x; reflexivity. Qed.
Lemma default_at b p len : at_addr b (to_default_value 0 p len) = to_default_value b p len.
Proof. destruct p; reflexivity. Qed.

Lemma list_eq_nil_dec {A} (l : list A) : {l = []} + {l <> []}.
Proof. destruct l; [left; reflexivity|right; discriminate]. Qed.
Lemma NoDup_app_left' {A} (l r : list A) : NoDup (l ++ r) -> NoDup l.
Proof.
  induction l as [|x l IH]; intros N; [constructor|]. cbn [app] in N. inversion N as [|? ? N1 N2]; subst.
  constructor; [|apply IH, N2]. intros F. apply N1, in_or_app. left. exact F.
Qed.

Section Run.
Variable held : list Z.
Variable alloc : Z -> list (Z * (Z * cell)) -> Z.
Hypothesis fresh : fresh_alloc alloc.
Notation moved := (moved held).

(* ------------------------------------------------------------------ *)
(** * Items *)

Section Item.
Variable n : nat.

Lemma on_vals h out va ra it h' va' m' : itemR n h (va, ra) it -> moved (ra :: out) h [va] h' [va'] -> vals_at h' (list_at n h') va' m' ->
  moved out h [va; ra] h' [va'; ra] /\ itemR n h' (va', ra) (Item m' (it_refs it)).
Proof.
  intros [V E] M W. split; [apply (moved_frame held out [ra]) in M; exact M|]. split; [exact W|]. cbn [snd it_refs] in *.
  eapply kept_content; [|exact E]. destruct M as (_ & K & _). apply K. left. reflexivity.
Qed.

Definition item_answer {A} (r : res (item (mlistT n) * bool)) (x : res (heap * A * bool)) (P : heap -> A -> item (mlistT n) -> Prop) : Prop :=
  match r with
  | Ok (it', b) => exists h' y, x = Ok (h', y, b) /\ P h' y it'
  | Err => False
  | Panic => x = Panic
  end.

Lemma hitem_do_spec h out va ra it (d : ldef (defT n)) o : counted h ([va; ra] ++ out) -> incl held out -> itemR n h (va, ra) it ->
  def_at (S n) h held d ->
  exists it0 o', fresher_item (fresher n) it it0 /\ unaddr_item o' = unaddr_item o /\
    item_answer (item_do it0 d o') (hitem_do alloc n h (va, ra) d o)
      (fun h' x' it' => moved out h [va; ra] h' [fst x'; snd x'] /\ itemR n h' x' it').
Proof.
  intros C HH I [D1 D2]. assert (FR : fresher_item (fresher n) it it) by apply fresher_item_refl, fresher_refl.
  assert (HH' : incl held (ra :: out)) by apply incl_more, HH.
  assert (Same : moved out h [va; ra] h [va; ra] /\ itemR n h (va, ra) it) by (split; [apply moved_refl; exact C|exact I]).
  pose proof I as [V E]. cbn [fst snd] in V, E.
  destruct o as [key p|key t a txt|key a len|key q|key id|key]; cbn [hitem_do].
  - (* ISet *)
    destruct (hget key (ld_members d)) as [[id [p0 vt|t0|d0 u]]|] eqn:G; try (exists it, (ISet key p); cbn [item_do]; unfold item_set; rewrite G; split; [exact FR|split; [reflexivity|exists h, (va, ra); split; [reflexivity|exact Same]]]).
    destruct (verify_set_sabun p0 vt p) eqn:W; [|exists it, (ISet key p); cbn [item_do]; unfold item_set; rewrite G, W; split; [exact FR|split; [reflexivity|exists h, (va, ra); split; [reflexivity|exact Same]]]].
    destruct (own_vals_spec held alloc fresh n h (ra :: out) va _ C V) as (h1 & b1 & c & E1 & M1 & O1 & P1 & X1). rewrite E1. cbn [bind].
    assert (C1 : counted h1 (b1 :: ra :: out)) by (destruct M1 as (C1 & _); exact C1).
    destruct (set_param_spec held alloc fresh n h1 (ra :: out) b1 c _ key p C1 HH' O1 P1) as (h2 & h3 & b & E2 & E3 & M3 & V3).
    exists it, (ISet key (at_addr b p)). split; [exact FR|]. split; [cbn [unaddr_item]; rewrite unaddr_at; reflexivity|].
    cbn [item_do]. unfold item_set. rewrite G, verify_at, W. pose proof (paired_hget _ key _ _ P1) as K.
    assert (Done : item_answer (Ok (Item (hset key (LParam (at_addr b p)) (it_values it)) (it_refs it), true))
       (let '(h0, p1) := place alloc h1 p in h4 <- hput n h0 b1 c key (LParam (bare p1)); Ok (h4, (b1, ra), true))
       (fun h' x' it' => moved out h [va; ra] h' [fst x'; snd x'] /\ itemR n h' x' it')).
    { rewrite E2, E3. cbn [bind]. exists h3, (b1, ra). split; [reflexivity|].
      eapply on_vals; [exact I|eapply moved_trans; [exact M1|exact M3]|exact V3]. }
    destruct (hget key c) as [v|], (hget key (it_values it)) as [w|]; try destruct K; [|exact Done].
    unfold lvalR in K. destruct v as [q|t0|[l|]], w as [q'|u|[l'|]]; cbn [lval_at] in K; try destruct K as []; try exact Done; reflexivity.
  - (* IWrite *)
    destruct (own_vals_spec held alloc fresh n h (ra :: out) va _ C V) as (h1 & b1 & c & E1 & M1 & O1 & P1 & X1). rewrite E1. cbn [bind].
    assert (C1 : counted h1 (b1 :: ra :: out)) by (destruct M1 as (C1 & _); exact C1).
    destruct (hwrite_spec held alloc fresh n h1 (ra :: out) b1 c _ (item_param_def d key) key t txt C1 HH' O1 P1) as (h2 & b & E2 & M2 & V2).
    { intros p. unfold item_param_def. destruct (hget key (ld_members d)) as [[id [p0 vt|t0|d0 u]]|] eqn:G; try discriminate.
      intros H. apply Some_inj in H as <-. destruct (D1 _ _ _ _ G) as [A B]. split; [|exact B].
      eapply param_kept; [|exact A]. intros x _. apply extends_kept. exact X1. }
    rewrite E2. cbn [bind]. exists it, (IWrite key t b txt). split; [exact FR|]. split; [reflexivity|].
    assert (item_do it d (IWrite key t b txt) = Ok (Item (fst (write_vals n (it_values it) (item_param_def d key) key t b txt)) (it_refs it), snd (write_vals n (it_values it) (item_param_def d key) key t b txt))) as ->.
    { cbn [item_do]. unfold item_write, item_param_mut, write_vals, mut_vals, item_param_def.
      destruct it as [m r]. cbn [it_values it_refs]. destruct (hget key m) as [[q|t0|l]|];
        [destruct (eqb_type (type_of q) t); reflexivity|..];
        (destruct (hget key (ld_members d)) as [[id [p0 vt|t1|d0 u]]|]; cbn [it_values it_refs]; try reflexivity;
         destruct (eqb_type (type_of p0) t); cbn [it_values it_refs]; reflexivity). }
    cbn [item_answer]. exists h2, (b1, ra). split; [reflexivity|]. eapply on_vals; [exact I|eapply moved_trans; [exact M1|exact M2]|exact V2].
  - (* IInitial *)
    destruct (hget key (ld_members d)) as [[id [p0 vt|t0|d0 u]]|] eqn:G; try (exists it, (IInitial key a len); cbn [item_do]; unfold item_initial; rewrite G; split; [exact FR|split; [reflexivity|exists h, (va, ra); split; [reflexivity|exact Same]]]).
    destruct (own_vals_spec held alloc fresh n h (ra :: out) va _ C V) as (h1 & b1 & c & E1 & M1 & O1 & P1 & X1). rewrite E1. cbn [bind].
    assert (C1 : counted h1 (b1 :: ra :: out)) by (destruct M1 as (C1 & _); exact C1).
    destruct (set_param_spec held alloc fresh n h1 (ra :: out) b1 c _ key (to_default_value 0 p0 len) C1 HH' O1 P1) as (h2 & h3 & b & E2 & E3 & M3 & V3).
    exists it, (IInitial key b len). split; [exact FR|]. split; [reflexivity|].
    cbn [item_do]. unfold item_initial. rewrite G, E2, E3. cbn [bind item_answer]. exists h3, (b1, ra). split; [reflexivity|].
    rewrite default_at in V3. eapply on_vals; [exact I|eapply moved_trans; [exact M1|exact M3]|exact V3].
  - (* IRef *)
    assert (C' : counted h (ra :: va :: out)) by (revert C; apply counted_occ; intros x; cbn [app occ]; lia).
    destruct (own_refs_spec held alloc fresh h (va :: out) ra _ C' E) as (h1 & b1 & E1 & M1 & O1 & X1). rewrite E1. cbn [bind].
    assert (C1 : counted h1 ((b1 :: []) ++ va :: out)) by (destruct M1 as (C1 & _); exact C1).
    destruct (moved_put held (va :: out) h1 b1 [] [] _ (CRefs (hset key q (it_refs it))) C1 O1) as (M2 & O2 & K2); [reflexivity|].
    exists it, (IRef key q). split; [exact FR|]. split; [reflexivity|]. cbn [item_do item_answer]. unfold item_set_ref.
    eexists _, (va, b1). split; [reflexivity|]. pose proof (moved_trans held _ _ _ _ _ _ _ M1 M2) as M.
    split; [apply (moved_frame held out [va]) in M; revert M; apply moved_occ; intros x; rewrite ?occ_app; cbn [fst snd occ]; lia|].
    split; cbn [fst snd it_values it_refs]; [|apply owned_content, O2].
    eapply vals_kept; [|exact V]. destruct M as (_ & K & _). apply K. left. reflexivity.
  - (* IEnum *)
    assert (C' : counted h (ra :: va :: out)) by (revert C; apply counted_occ; intros x; cbn [app occ]; lia).
    destruct (own_refs_spec held alloc fresh h (va :: out) ra _ C' E) as (h1 & b1 & E1 & M1 & O1 & X1). rewrite E1. cbn [bind].
    assert (C1 : counted h1 ((b1 :: []) ++ va :: out)) by (destruct M1 as (C1 & _); exact C1).
    destruct (moved_put held (va :: out) h1 b1 [] [] _ (CRefs (hset key (Val id) [])) C1 O1) as (M2 & O2 & K2); [reflexivity|].
    exists it, (IEnum key id). split; [exact FR|]. split; [reflexivity|]. cbn [item_do item_answer]. unfold item_set_enum, item_set_ref.
    eexists _, (va, b1). split; [reflexivity|]. pose proof (moved_trans held _ _ _ _ _ _ _ M1 M2) as M.
    split; [apply (moved_frame held out [va]) in M; revert M; apply moved_occ; intros x; rewrite ?occ_app; cbn [fst snd occ]; lia|].
    split; cbn [fst snd it_values it_refs]; [|apply owned_content, O2].
    eapply vals_kept; [|exact V]. destruct M as (_ & K & _). apply K. left. reflexivity.
  - (* IOpen *)
    destruct (hget key (ld_members d)) as [[id [p0 vt|t0|d0 u]]|] eqn:G; try (exists it, (IOpen key); cbn [item_do]; unfold item_open; rewrite G; split; [exact FR|split; [reflexivity|exists h, (va, ra); split; [reflexivity|exact Same]]]).
    destruct (own_vals_spec held alloc fresh n h (ra :: out) va _ C V) as (h1 & b1 & c & E1 & M1 & O1 & P1 & X1). rewrite E1. cbn [bind].
    assert (C1 : counted h1 (b1 :: ra :: out)) by (destruct M1 as (C1 & _); exact C1).
    destruct (hopen_spec held alloc fresh n h1 (ra :: out) b1 c _ key d0 C1 HH' O1 P1) as (h2 & l & E2 & M2 & O2 & P2 & L2). rewrite E2. cbn [bind].
    assert (C2 : counted h2 (l :: b1 :: ra :: out)) by (destruct M2 as (C2 & _); revert C2; apply counted_occ; intros x; cbn [app occ]; lia).
    destruct (own_inner_spec held alloc fresh n h2 (b1 :: ra :: out) l _ d0 C2 L2) as (h3 & l3 & c3 & l0 & E3 & M3 & L3 & F3 & X3). rewrite E3. cbn [bind].
    assert (O3 : owned h3 b1 (CVals (hset key (LMil None) c))) by (eapply (owned_stays held h2 [l] b1 (ra :: out)); [exact C2|exact HH'|exact O2|exact M3]).
    assert (C3 : counted h3 ([b1; l3] ++ ra :: out)) by (destruct M3 as (C3 & _); revert C3; apply counted_occ; intros x; cbn [app occ]; lia).
    assert (P3 : paired (lvalR n h3) (hset key (LMil None) c) (hset key (LMil None) (it_values it))).
    { eapply entries_kept; [|exact P2]. intros x _. apply extends_kept. exact X3. }
    destruct (hclose_spec held n h3 (ra :: out) b1 c _ key l3 l0 C3 O3 P3 L3) as (M4 & V4).
    destruct (open_fresher n d0 (it_values it) key l0 F3) as (m0 & F0 & S0 & W0 & T0).
    exists (Item m0 (it_refs it)), (IOpen key). split; [split; [exact F0|reflexivity]|]. split; [reflexivity|].
    assert (item_do (Item m0 (it_refs it)) d (IOpen key) = Ok (Item (hset key (LMil (Some l0)) (it_values it)) (it_refs it), true)) as ->.
    { rewrite <- T0. cbn [item_do]. unfold item_open. rewrite G. cbn [it_values it_refs]. unfold open_vals.
      destruct (hget key m0) as [[q|t0|[l'|]]|]; cbn [fst is_some]; reflexivity. }
    cbn [item_answer]. eexists _, (b1, ra). split; [reflexivity|]. eapply on_vals; [exact I| |exact V4].
    eapply moved_trans; [exact M1|]. eapply moved_trans; [exact M2|]. eapply moved_trans; [|exact M4].
    apply (moved_frame held (ra :: out) [b1]) in M3. revert M3. apply moved_occ; intros x; rewrite ?occ_app; cbn [occ]; lia.
Qed.

(* ------------------------------------------------------------------ *)
(** * Lists *)

Definition list_answer {A N} (r : res (mlistT N * bool)) (x : res (heap * A * bool)) (P : heap -> A -> mlistT N -> Prop) : Prop :=
  match r with
  | Ok (l', b) => exists h' y, x = Ok (h', y, b) /\ P h' y l'
  | Err => False
  | Panic => x = Panic
  end.

Lemma owned_list h a (c : mlist (Z * Z)) l : owned h a (CList c) -> paired (itemR n h) (fst c) (fst l) -> snd c = snd l -> NoDup (ids (fst l)) ->
  list_at (S n) h a l.
Proof.
  intros O P K ND. cbn [list_at]. split; [exact ND|]. exists (fst c). split; [rewrite (owned_content _ _ _ O); destruct c as [c0 k0], l as [l0 k1]; cbn [fst snd] in *; rewrite K; reflexivity|exact P].
Qed.

(** items of a list are dropped, or change places *)
Lemma relist_spec h out a (c : mlist (Z * Z)) gone c' (l' : mlist (item (mlistT n))) (w : list (Z * item (mlistT n))) :
  counted h (a :: out) -> incl held out -> owned h a (CList c) -> Permutation (fst c) (gone ++ fst c') ->
  paired (itemR n h) (fst c) w -> paired (itemR n h) (fst c') (fst l') -> snd c' = snd l' -> NoDup (ids (fst l')) ->
  exists h', mfold (fun h e => drop_item (drop_list n) h (snd e)) gone (put h a (1, CList c')) = Ok h' /\
    moved out h [a] h' [a] /\ list_at (S n) h' a l'.
Proof.
  intros C HH O PM PW P K ND.
  set (refs := fun e : Z * (Z * Z) => [fst (snd e); snd (snd e)]).
  destruct (moved_put held out h a [] (flat_map refs gone) (CList c) (CList c') C O) as (M1 & O1 & K1).
  { intros x. cbn [children occ]. fold refs. rewrite (occ_flat_perm refs x _ _ PM), flat_map_app, occ_app. lia. }
  set (h1 := put h a (1, CList c')) in *.
  assert (KC : forall x, In x (children (CList c)) -> kept h h1 x).
  { intros x Hx. apply K1. eapply (owned_child h [] a); [exact C|exact O|exact Hx]. }
  assert (KC' : forall x, In x (children (CList c')) -> kept h h1 x).
  { intros x Hx. apply KC. cbn [children] in Hx |- *. fold refs in Hx |- *. rewrite occ_in in Hx |- *. rewrite (occ_flat_perm refs x _ _ PM), flat_map_app, occ_app.
    pose proof (occ_nonneg x (flat_map refs gone)). lia. }
  assert (C1 : counted h1 (flat_map refs gone ++ a :: out)).
  { destruct M1 as (C1 & _). revert C1. apply counted_occ. intros x. cbn [app occ]. rewrite !occ_app. cbn [occ]. lia. }
  destruct (mfold_drop held (fun h e => drop_item (drop_list n) h (snd e)) refs (fun h e => exists w, itemR n h (snd e) w)) with (l := gone) (h := h1) (out := a :: out) as (h' & E' & M').
  - intros h0 out0 e C0 [w0 W]. eapply drop_item_spec; [exact C0|exact W].
  - intros h0 h2 e K0 [w0 W]. exists w0. eapply item_kept; [| |exact W]; apply K0; [left|right; left]; reflexivity.
  - exact C1.
  - intros e He.
    assert (In e (fst c)) as Hc by (apply Permutation_sym in PM; eapply Permutation_in; [exact PM|apply in_or_app; left; exact He]).
    destruct (paired_in _ _ _ e PW Hc) as [w0 W]. exists w0. eapply item_kept; [| |exact W]; apply KC; cbn [children]; fold refs; apply in_flat_map; exists e; (split; [exact Hc|]); [left|right; left]; reflexivity.
  - exists h'. split; [exact E'|].
    assert (O' : owned h' a (CList c')) by (eapply (owned_stays held); [exact C1|exact HH|exact O1|exact M']).
    split.
    + eapply moved_trans; [exact M1|]. apply (moved_frame held out [a]) in M'. revert M'. apply moved_occ; intros x; rewrite ?occ_app; cbn [occ]; lia.
    + apply owned_list with c'; [exact O'| |exact K|exact ND].
      apply (items_kept n h1 h' c'); [|apply (items_kept n h h1 c'); [exact KC'|exact P]].
      intros x Hx. eapply kept_child; [destruct M' as (_ & K' & _); apply K'; left; reflexivity|apply owned_content, O1|exact Hx].
Qed.

Lemma list_do_nodup (l l' : mlist (item (mlistT n))) o b : NoDup (ids (fst l)) -> list_do l o = Ok (l', b) -> NoDup (ids (fst l')).
Proof.
  intros ND E. destruct (list_do_cases l l' o b ND E) as [->|[(l1 & l2 & k & -> & -> & _ & N & _)|[(l1 & l2 & id & it & k & -> & ->)|(_ & P & _)]]].
  - exact ND.
  - cbn [fst] in *. unfold ids in *. rewrite map_app in *. cbn [map fst]. apply NoDup_remove_rev; assumption.
  - cbn [fst] in *. unfold ids in *. rewrite map_app in *. cbn [map fst] in ND. eapply NoDup_remove_1. exact ND.
  - eapply Permutation_NoDup; [|exact ND]. unfold ids. apply Permutation_map, P.
Qed.

Lemma hlist_do_spec h out a (c : mlist (Z * Z)) (l : mlist (item (mlistT n))) o : counted h (a :: out) -> incl held out -> owned h a (CList c) ->
  paired (itemR n h) (fst c) (fst l) -> snd c = snd l -> NoDup (ids (fst l)) ->
  match list_do l o with
  | Ok (l', b) => exists h', hlist_do alloc n h a c o = Ok (h', b) /\ moved out h [a] h' [a] /\ list_at (S n) h' a l'
  | Err => False
  | Panic => hlist_do alloc n h a c o = Panic
  end.
Proof.
  destruct c as [c k], l as [l k']. cbn [fst snd]. intros C HH O P -> ND. pose proof (list_do_nodup (l, k') ) as LN. cbn [fst] in LN.
  assert (NDc : NoDup (ids c)) by (rewrite (paired_ids _ _ _ P); exact ND).
  assert (HS : forall id, has id c = has id l).
  { intros id. unfold has. pose proof (paired_lookup _ id _ _ P) as G. destruct (lookup id c), (lookup id l); try destruct G; reflexivity. }
  assert (ZL : zlen c = zlen l) by (unfold zlen; rewrite (paired_length _ _ _ P); reflexivity).
  assert (Re : forall gone c' (l' : list (Z * item (mlistT n))), Permutation c (gone ++ c') -> paired (itemR n h) c' l' -> NoDup (ids l') ->
    exists h', mfold (fun h e => drop_item (drop_list n) h (snd e)) gone (put h a (1, CList (c', k'))) = Ok h' /\ moved out h [a] h' [a] /\ list_at (S n) h' a (l', k')).
  { intros gone c' l' PM P' N'. apply (relist_spec h out a (c, k') gone (c', k') (l', k') l); auto. }
  assert (Ins : forall front : bool, if (k' + 1 <? 2 ^ 64) && negb (has k' l) && (zlen l + 1 <? 2 ^ 62) then
      exists h', (let '(h1, va) := new alloc h (CVals []) in let '(h2, ra) := new alloc h1 (CRefs []) in
         Ok (put h2 a (1, CList (if front then (k', (va, ra)) :: c else c ++ [(k', (va, ra))], k' + 1)), true)) = Ok (h', true) /\
       moved out h [a] h' [a] /\ list_at (S n) h' a (if front then (k', Item [] []) :: l else l ++ [(k', Item [] [])], k' + 1) else True).
  { intros front. destruct (_ && _) eqn:Q; [|exact Logic.I]. apply andb_true_iff in Q as [Q _]. apply andb_true_iff in Q as [_ Q]. apply negb_true_iff in Q.
    destruct (moved_new held alloc fresh (a :: out) h (CVals []) [] C) as (M1 & O1 & X1 & _).
    destruct (new alloc h (CVals [])) as [h1 va]. cbn [fst snd children flat_map app] in M1, O1, X1.
    assert (C1 : counted h1 (va :: a :: out)) by (destruct M1 as (C1 & _); exact C1).
    destruct (moved_new held alloc fresh (a :: out) h1 (CRefs []) [va] C1) as (M2 & O2 & X2 & _).
    destruct (new alloc h1 (CRefs [])) as [h2 ra]. cbn [fst snd children flat_map app] in M2, O2, X2.
    pose proof (moved_trans held _ _ _ _ _ _ _ M1 M2) as M.
    assert (C2 : counted h2 ((a :: [ra; va]) ++ out)) by (destruct M2 as (C2 & _); revert C2; apply counted_occ; intros x; cbn [app occ]; lia).
    assert (OA : owned h2 a (CList (c, k'))) by (eapply (owned_stays held h [] a out); [exact C|exact HH|exact O|exact M]).
    set (c' := if front then (k', (va, ra)) :: c else c ++ [(k', (va, ra))]).
    destruct (moved_put held out h2 a [ra; va] [] _ (CList (c', k' + 1)) C2 OA) as (M3 & O3 & K3).
    { intros x. cbn [children fst]. unfold c'. destruct front; cbn [flat_map fst snd app occ]; [lia|]. rewrite flat_map_app, occ_app. cbn [flat_map fst snd app occ]. lia. }
    eexists. split; [reflexivity|]. split.
    - eapply moved_trans; [|exact M3]. apply (moved_frame held out [a]) in M. revert M. apply moved_occ; intros x; rewrite ?occ_app; cbn [occ]; lia.
    - set (h3 := put h2 a (1, CList (c', k' + 1))) in *.
      destruct (owned_alone h2 [] a ([ra; va] ++ out) _ C2 OA) as (_ & NA & _).
      assert (PO : paired (itemR n h3) c l).
      { apply (items_kept n h2 h3 (c, k')).
        - intros x Hx. apply K3. eapply (owned_child h2 [] a); [exact C2|exact OA|exact Hx].
        - apply (items_kept n h h2 (c, k')); [|exact P]. intros x _. apply extends_kept. intros y w0 E. apply X2, X1, E. }
      assert (PN : itemR n h3 (va, ra) (Item [] [])).
      { split; cbn [fst snd it_values it_refs].
        - exists []. split; [|constructor]. eapply kept_content; [|apply X2, owned_content, O1]. apply K3. intros ->. apply NA. right. left. reflexivity.
        - eapply kept_content; [|apply owned_content, O2]. apply K3. intros ->. apply NA. left. reflexivity. }
      apply owned_list with (c', k' + 1); [exact O3| |reflexivity|].
      + cbn [fst]. unfold c'. destruct front; [constructor; [split; [reflexivity|exact PN]|exact PO]|].
        apply paired_app; [exact PO|apply paired_one; exact PN].
      + cbn [fst]. assert (~ In k' (ids l)) as NI by (intros F; apply in_has in F; congruence).
        destruct front; unfold ids; [cbn [map fst]; constructor; assumption|]. rewrite map_app. cbn [map fst].
        apply NoDup_remove_rev; rewrite app_nil_r; assumption. }
  unfold list_do, hlist_do. cbn [fst snd]. rewrite HS, ZL.
  destruct o as [| |id| | |id|id|j id|j id].
  - specialize (Ins true). destruct (_ && _); [|reflexivity]. cbn [astep fst snd]. exact Ins.
  - specialize (Ins false). destruct (_ && _); [|reflexivity]. cbn [astep fst snd]. exact Ins.
  - cbn [astep fst snd removed]. rewrite HS. pose proof (paired_lookup _ id _ _ P) as G.
    destruct (lookup id c) as [x|] eqn:Ec.
    + destruct (Re [(id, x)] (without id c) (without id l)) as (h' & E' & M' & L'); [apply move_perm; assumption|apply paired_without, P|rewrite ids_without; apply NoDup_filter, ND|].
      rewrite E'. cbn [bind]. exists h'. split; [reflexivity|]. split; assumption.
    + destruct (Re [] (without id c) (without id l)) as (h' & E' & M' & L').
      * rewrite without_absent; [reflexivity|]. intros F. apply in_has in F. unfold has in F. rewrite Ec in F. discriminate.
      * apply paired_without, P.
      * rewrite ids_without. apply NoDup_filter, ND.
      * rewrite E'. cbn [bind]. exists h'. split; [reflexivity|]. split; assumption.
  - cbn [astep fst snd removed].
    destruct (Re (firstn 1 c) (tl c) (tl l)) as (h' & E' & M' & L'); [destruct c; reflexivity|apply paired_tl, P|destruct l as [|e l]; [constructor|inversion ND; assumption]|].
    rewrite E'. cbn [bind]. exists h'. split; [|split; assumption]. unfold paired in P. destruct P; reflexivity.
  - cbn [astep fst snd removed].
    destruct (Re (match rev c with x :: _ => [x] | [] => [] end) (removelast c) (removelast l)) as (h' & E' & M' & L').
    + destruct (list_eq_nil_dec c) as [->|NE]; [reflexivity|]. destruct (exists_last NE) as (c1 & e & ->). rewrite rev_unit, removelast_last. apply Permutation_sym, Permutation_cons_append.
    + apply paired_removelast, P.
    + destruct l as [|e l]; [constructor|]. pose proof (app_removelast_last e (l := e :: l) ltac:(discriminate)) as R. rewrite R in ND. unfold ids in ND. rewrite map_app in ND.
      unfold ids. eapply (NoDup_app_left' _ _ ND).
    + rewrite E'. cbn [bind]. exists h'. split; [|split; assumption]. unfold paired in P. destruct P; reflexivity.
  - pose proof (LN (fst (astep (l, k') (MoveToFirst id))) (LMoveToFirst id)) as N1. cbn [list_do] in N1. specialize (N1 _ ND eq_refl).
    pose proof (paired_lookup _ id _ _ P) as G. cbn [astep] in *. destruct (lookup id c) as [x|] eqn:Ec, (lookup id l) as [y|] eqn:El; try (exfalso; exact G); cbn [fst snd] in *.
    + destruct (Re [] ((id, x) :: without id c) ((id, y) :: without id l)) as (h' & E' & M' & L'); [apply move_perm; assumption| |exact N1|].
      * constructor; [split; [reflexivity|exact G]|apply paired_without, P].
      * apply Ok_inj in E' as <-. eexists. split; [reflexivity|]. split; assumption.
    + destruct (Re [] c l) as (h' & E' & M' & L'); [reflexivity|exact P|exact ND|]. apply Ok_inj in E' as <-. eexists. split; [reflexivity|]. split; assumption.
  - pose proof (LN (fst (astep (l, k') (MoveToLast id))) (LMoveToLast id)) as N1. cbn [list_do] in N1. specialize (N1 _ ND eq_refl).
    pose proof (paired_lookup _ id _ _ P) as G. cbn [astep] in *. destruct (lookup id c) as [x|] eqn:Ec, (lookup id l) as [y|] eqn:El; try (exfalso; exact G); cbn [fst snd] in *.
    + destruct (Re [] (without id c ++ [(id, x)]) (without id l ++ [(id, y)])) as (h' & E' & M' & L'); [| |exact N1|].
      * cbn [app]. rewrite <- Permutation_cons_append. apply move_perm; assumption.
      * apply paired_app; [apply paired_without, P|apply paired_one, G].
      * apply Ok_inj in E' as <-. eexists. split; [reflexivity|]. split; assumption.
    + destruct (Re [] c l) as (h' & E' & M' & L'); [reflexivity|exact P|exact ND|]. apply Ok_inj in E' as <-. eexists. split; [reflexivity|]. split; assumption.
  - pose proof (LN (fst (astep (l, k') (MoveToPrev j id))) (LMoveToPrev j id)) as N1. cbn [list_do] in N1. specialize (N1 _ ND eq_refl).
    pose proof (paired_lookup _ id _ _ P) as G. cbn [astep] in *. rewrite HS.
    destruct (lookup id c) as [x|] eqn:Ec, (lookup id l) as [y|] eqn:El; try (exfalso; exact G); cbn [fst snd] in *.
    + destruct ((id =? j) || negb (has j l)) eqn:Q; cbn [fst snd] in *.
      * destruct (Re [] c l) as (h' & E' & M' & L'); [reflexivity|exact P|exact ND|]. apply Ok_inj in E' as <-. eexists. split; [reflexivity|]. split; assumption.
      * apply orb_false_iff in Q as [Q1 Q2]. apply Z.eqb_neq in Q1. apply negb_false_iff in Q2. rewrite <- HS in Q2. apply has_in in Q2.
        destruct (Re [] (before j (id, x) (without id c)) (before j (id, y) (without id l))) as (h' & E' & M' & L'); [| |exact N1|].
        -- cbn [app]. rewrite before_perm; [apply move_perm; assumption|]. apply without_in; auto.
        -- apply paired_before; [exact G|]. apply paired_without, P.
        -- apply Ok_inj in E' as <-. eexists. split; [reflexivity|]. split; assumption.
    + destruct (Re [] c l) as (h' & E' & M' & L'); [reflexivity|exact P|exact ND|]. apply Ok_inj in E' as <-. eexists. split; [reflexivity|]. split; assumption.
  - pose proof (LN (fst (astep (l, k') (MoveToNext j id))) (LMoveToNext j id)) as N1. cbn [list_do] in N1. specialize (N1 _ ND eq_refl).
    pose proof (paired_lookup _ id _ _ P) as G. cbn [astep] in *. rewrite HS.
    destruct (lookup id c) as [x|] eqn:Ec, (lookup id l) as [y|] eqn:El; try (exfalso; exact G); cbn [fst snd] in *.
    + destruct ((id =? j) || negb (has j l)) eqn:Q; cbn [fst snd] in *.
      * destruct (Re [] c l) as (h' & E' & M' & L'); [reflexivity|exact P|exact ND|]. apply Ok_inj in E' as <-. eexists. split; [reflexivity|]. split; assumption.
      * apply orb_false_iff in Q as [Q1 Q2]. apply Z.eqb_neq in Q1. apply negb_false_iff in Q2. rewrite <- HS in Q2. apply has_in in Q2.
        destruct (Re [] (after j (id, x) (without id c)) (after j (id, y) (without id l))) as (h' & E' & M' & L'); [| |exact N1|].
        -- cbn [app]. rewrite after_perm; [apply move_perm; assumption|]. apply without_in; auto.
        -- apply paired_after; [exact G|]. apply paired_without, P.
        -- apply Ok_inj in E' as <-. eexists. split; [reflexivity|]. split; assumption.
    + destruct (Re [] c l) as (h' & E' & M' & L'); [reflexivity|exact P|exact ND|]. apply Ok_inj in E' as <-. eexists. split; [reflexivity|]. split; assumption.
Qed.
End Item.
End Run.
