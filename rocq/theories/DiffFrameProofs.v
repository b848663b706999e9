(** What applying a difference leaves alone, and differences of equal documents. *)
From Verif Require Import Base CompactionModel CompactionSpec FloatModel FloatProofs StringCompactionModel StringCompactionProofs
  LinkedModel LinkedSpec LinkedProofs DocModel DiffModel DiffWireModel DiffSpec DiffEditSpec DiffProofs DiffProofs2 DiffProofs3 DiffProofs4 DiffEditProofs
  DiffWireProofs3.

(** ** Maps *)

(** steps that set at most the key of an entry *)
Lemma mfold_frame {A B} (T : metatable B) (e : Type) (f : hmap A -> Z * e -> res (hmap A)) (l : list (Z * e)) :
  (forall m id x m', f m (id, x) = Ok m' -> exists key mv, meta_get T id = Some (key, mv) /\ forall k, k <> key -> hget k m' = hget k m) ->
  forall m m', mfold f l m = Ok m' -> forall key, (forall id mv, In id (map fst l) -> meta_get T id <> Some (key, mv)) -> hget key m' = hget key m.
Proof.
  intros Hf. induction l as [|[id x] l IH]; intros m m' E key H; cbn [mfold] in E; [apply Ok_inj in E; subst; reflexivity|].
  destruct (f m (id, x)) as [m1| |] eqn:E1; try discriminate. cbn [bind] in E.
  rewrite (IH _ _ E); [|intros i mv I; apply H; right; exact I].
  destruct (Hf _ _ _ _ E1) as (k & mv & Em & Hk). apply Hk. intros ->. exact (H id mv (or_introl eq_refl) Em).
Qed.

Section Frame.
Context {D M L LD : Type}.
Variable inner_apply : L -> LD -> M -> res L.
Variable inner_make : LD -> M -> res L.
Variable itab : D -> M -> Prop.
Variable frame : D -> LD -> L -> L -> Prop.
Hypothesis Hin : forall d m l x l', itab d m -> inner_apply l x m = Ok l' -> frame d x l l'.

Lemma apply_lists_step T m id (o : option LD) m' :
  (match meta_get T id with
    | None => Err
    | Some (key, MMList tables) | Some (key, MOptMil tables) =>
        match o with
        | Some list_diff =>
            match hget key m with
            | Some (LMil (Some l)) => l <- inner_apply l list_diff tables ; Ok (hset key (LMil (Some l)) m)
            | _ => l <- inner_make list_diff tables ; Ok (hset key (LMil (Some l)) m)
            end
        | None => Ok (hset key (LMil None) m)
        end
    | Some (_, MParam _ _) => Err
    end) = Ok m' -> exists key mv, meta_get T id = Some (key, mv) /\ forall k, k <> key -> hget k m' = hget k m.
Proof.
  assert (Put : forall key v, m' = hset key v m -> forall k, k <> key -> hget k m' = hget k m) by (intros key v -> k N; apply hget_hset_other; exact N).
  destruct (meta_get T id) as [[key [pt vt|t|t]]|]; try discriminate; intros H; exists key; eexists; (split; [reflexivity|]);
    (destruct o as [x|]; [|apply Ok_inj in H; eapply Put; symmetry; exact H]);
    (destruct (hget key m) as [[p|t'|[l|]]|];
     [destruct (inner_make x t) eqn:E|destruct (inner_make x t) eqn:E|destruct (inner_apply l x t) eqn:E|destruct (inner_make x t) eqn:E|destruct (inner_make x t) eqn:E];
     try discriminate; cbn [bind] in H; apply Ok_inj in H; eapply Put; symmetry; exact H).
Qed.

Lemma modify_frame def meta (it it' : item L) d : tables_for itab def meta ->
  modify_item_from_diff inner_apply inner_make it d meta = Ok it' -> frame_item frame def d it it'.
Proof.
  intros TF E. unfold modify_item_from_diff in E.
  destruct (apply_params _ _ _) as [v1| |] eqn:E1; try discriminate. cbn [bind] in E.
  destruct (apply_lists _ _ _ _ v1) as [v2| |] eqn:E2; try discriminate. cbn [bind] in E.
  destruct (apply_refs _ _ _) as [r| |] eqn:E3; try discriminate. cbn [bind] in E. apply Ok_inj in E; subst it'.
  assert (F1 : forall key, (forall id mv, In id (map fst (df_params d)) -> meta_get (mt_items meta) id <> Some (key, mv)) -> hget key v1 = hget key (it_values it)).
  { eapply mfold_frame; [|exact E1]. intros m id x m' H. cbn in H. destruct (meta_get (mt_items meta) id) as [[key mv]|]; [|discriminate]. apply Ok_inj in H; subst m'.
    exists key, mv. split; [reflexivity|]. intros k N. apply hget_hset_other; exact N. }
  assert (Inv : forall id key mv, meta_get (mt_items meta) id = Some (key, mv) -> exists v, hget key (ld_members def) = Some (id, v)).
  { intros id key mv H. apply (tf_inv _ _ _ (ts_items _ _ _ TF)) in H. destruct mv; [destruct H as (p & H & _)|destruct H as (x & H & _)|destruct H as (x & H & _)]; eauto. }
  split; [|split]; cbn [it_values it_refs].
  - intros key H. transitivity (hget key v1).
    + eapply mfold_frame; [|exact E2|]; [intros m id x m' Hs; exact (apply_lists_step _ _ _ _ _ Hs)|].
      intros id mv I Hm. destruct (Inv _ _ _ Hm) as [v Hv]. destruct (H id v Hv) as [_ N]. exact (N I).
    + apply F1. intros id mv I Hm. destruct (Inv _ _ _ Hm) as [v Hv]. destruct (H id v Hv) as [N _]. exact (N I).
  - intros key H. eapply (mfold_frame (mt_refs meta)); [|exact E3|].
    + intros m id x m' Hs. cbn in Hs. destruct (meta_get (mt_refs meta) id) as [[k mv]|]; [|discriminate]. apply Ok_inj in Hs; subst m'.
      exists k, mv. split; [reflexivity|]. intros k' N. apply hget_hset_other; exact N.
    + intros id mv I Hm. apply (ts_refs _ _ _ TF) in Hm as (v & vt & Hv & _). exact (H id _ Hv I).
  - intros key id dd u x l Hk Np (l1 & l2 & El & N1 & N2) Hl.
    destruct (tf_list _ _ _ (ts_items _ _ _ TF) _ _ _ _ Hk) as (m & Hi & Hm).
    assert (Key : forall i mv, meta_get (mt_items meta) i = Some (key, mv) -> i = id).
    { intros i mv H. destruct (Inv _ _ _ H) as [v Hv]. congruence. }
    assert (H1 : hget key v1 = Some (LMil (Some l))).
    { rewrite F1; [exact Hl|]. intros i mv I H. rewrite (Key _ _ H) in I. exact (Np I). }
    rewrite El in E2. unfold apply_lists in E2. rewrite mfold_app in E2. destruct (mfold _ l1 v1) as [w1| |] eqn:Ew1; try discriminate. cbn [bind mfold] in E2.
    assert (H2 : hget key w1 = Some (LMil (Some l))).
    { rewrite <- H1. eapply mfold_frame; [|exact Ew1|]; [intros m0 i y m' Hs; exact (apply_lists_step _ _ _ _ _ Hs)|].
      intros i mv I H. rewrite (Key _ _ H) in I. exact (N1 I). }
    rewrite Hm in E2.
    assert (exists l', inner_apply l x m = Ok l' /\ hget key v2 = Some (LMil (Some l'))) as (l' & Ha & Hv2).
    { destruct (inner_apply l x m) as [l'| |] eqn:Ha.
      - exists l'. split; [reflexivity|].
        assert (E3' : mfold (fun r e => let '(id, op_list_diff) := e in
          match meta_get (mt_items meta) id with
          | None => Err
          | Some (key, MMList tables) | Some (key, MOptMil tables) =>
              match op_list_diff with
              | Some list_diff =>
                  match hget key r with
                  | Some (LMil (Some m)) => m <- inner_apply m list_diff tables ; Ok (hset key (LMil (Some m)) r)
                  | _ => m <- inner_make list_diff tables ; Ok (hset key (LMil (Some m)) r)
                  end
              | None => Ok (hset key (LMil None) r)
              end
          | Some (_, MParam _ _) => Err
          end) l2 (hset key (LMil (Some l')) w1) = Ok v2).
        { destruct u; rewrite H2, Ha in E2; cbn [bind] in E2; exact E2. }
        rewrite <- (hget_hset_same key (LMil (Some l')) w1).
        eapply mfold_frame; [|exact E3'|]; [intros m0 i y m' Hs; exact (apply_lists_step _ _ _ _ _ Hs)|].
        intros i mv I H. rewrite (Key _ _ H) in I. exact (N2 I).
      - exfalso. destruct u; rewrite H2, Ha in E2; discriminate.
      - exfalso. destruct u; rewrite H2, Ha in E2; discriminate. }
    exists l'. split; [exact Hv2|]. eapply Hin; eassumption.
Qed.

(** ** Lists *)

Definition out (k : Z -> bool) (l : list (Z * item L)) := filter (fun e => negb (k (fst e))) l.

Lemma out_without k id (l : list (Z * item L)) : k id = true -> out k (without id l) = out k l.
Proof.
  intros H. unfold out, without. induction l as [|[i x] l IH]; cbn; [reflexivity|]. destruct (Z.eqb_spec i id); cbn.
  - subst i. rewrite H. exact IH.
  - rewrite IH. reflexivity.
Qed.
Lemma out_assign k id it (l : list (Z * item L)) : k id = true -> out k (assign id it l) = out k l.
Proof.
  intros H. unfold out, assign. induction l as [|[i x] l IH]; cbn; [reflexivity|]. destruct (Z.eqb_spec i id); cbn.
  - subst i. rewrite H. exact IH.
  - rewrite IH. reflexivity.
Qed.
Lemma out_after k p id it (l : list (Z * item L)) : k id = true -> out k (after p (id, it) l) = out k l.
Proof.
  intros H. unfold out. induction l as [|[i x] l IH]; cbn; [reflexivity|]. destruct (Z.eqb_spec i p); cbn.
  - rewrite H. reflexivity.
  - rewrite IH. reflexivity.
Qed.

Lemma lookup_out id k (a b : list (Z * item L)) : out k a = out k b -> k id = false -> lookup id a = lookup id b.
Proof.
  intros E H. assert (G : forall l, lookup id (out k l) = lookup id l).
  { unfold out. induction l as [|[i x] l IH]; cbn; [reflexivity|]. destruct (k i) eqn:Ei; cbn.
    - rewrite IH. destruct (Z.eqb_spec id i); [subst; congruence|reflexivity].
    - destruct (id =? i); [reflexivity|exact IH]. }
  rewrite <- (G a), <- (G b), E. reflexivity.
Qed.

Lemma entry_frame meta (l l' : mlist (item L)) id e k : apply_entry inner_apply inner_make meta l (id, e) = Ok l' -> k id = true ->
  out k (fst l') = out k (fst l).
Proof.
  intros E H. destruct l as [l nx]. destruct e as [|prev x|x]; cbn [apply_entry] in E.
  - apply Ok_inj in E; subst l'. cbn [astep fst]. apply out_without; exact H.
  - destruct (new_item_from_diff _ _ _ _) as [it| |]; try discriminate. cbn [bind astep] in E. destruct (has id l); [discriminate|].
    assert (Cons : out k ((id, it) :: l) = out k l) by (unfold out; cbn; rewrite H; reflexivity).
    destruct prev as [p|]; [|apply Ok_inj in E; subst l'; exact Cons]. cbn [astep] in E.
    destruct (lookup id ((id, it) :: l)) as [v|]; [|discriminate]. destruct (_ || _); [discriminate|]. apply Ok_inj in E; subst l'. cbn [fst].
    rewrite out_after, out_without by exact H. exact Cons.
  - destruct (lookup id (fst (l, nx))) as [it|]; [|discriminate]. destruct (modify_item_from_diff _ _ _ _ _) as [it'| |]; try discriminate.
    cbn [bind astep fst] in E. apply Ok_inj in E; subst l'. cbn [fst]. apply out_assign; exact H.
Qed.

Lemma entries_frame meta k es : (forall id, In id (map fst es) -> k id = true) ->
  forall l l', mfold (apply_entry inner_apply inner_make meta) es l = Ok l' -> out k (fst l') = out k (fst l).
Proof.
  induction es as [|[id e] es IH]; intros H l l' E; cbn [mfold] in E; [apply Ok_inj in E; subst; reflexivity|].
  destruct (apply_entry _ _ _ l (id, e)) as [l1| |] eqn:E1; try discriminate. cbn [bind] in E.
  rewrite (IH (fun i I => H i (or_intror I)) _ _ E). eapply entry_frame; [exact E1|]. apply H. left; reflexivity.
Qed.

Lemma list_frame def meta (a b : mlist (item L)) d : tables_for itab def meta ->
  apply_list_diff inner_apply inner_make a d meta = Ok b -> frame_list frame def d a b.
Proof.
  intros TF E. destruct d as [es nx]. unfold apply_list_diff in E. destruct a as [l n0]. cbn [astep fst] in E.
  assert (Hk : forall (ks : list (Z * enumdiff LD)) id, In id (map fst ks) -> has id ks = true) by (intros ks id I; apply has_spec; exact I).
  split.
  - apply (entries_frame meta (fun id => has id es) es (Hk es) _ _ E).
  - intros id x it (e1 & e2 & Ee & N1 & N2) Hl. cbn [fst] in *. subst es. rewrite mfold_app in E.
    destruct (mfold (apply_entry inner_apply inner_make meta) e1 (l, nx)) as [l1| |] eqn:E1; try discriminate. cbn [bind mfold] in E.
    destruct (apply_entry _ _ _ l1 (id, Modify x)) as [l2| |] eqn:E2; try discriminate. cbn [bind] in E.
    assert (Nh : forall ks : list (Z * enumdiff LD), ~ In id (map fst ks) -> has id ks = false).
    { intros ks N. destruct (has id ks) eqn:Hh; [|reflexivity]. apply has_spec in Hh. contradiction. }
    pose proof (entries_frame meta (fun i => has i e1) e1 (Hk e1) _ _ E1) as F1.
    pose proof (entries_frame meta (fun i => has i e2) e2 (Hk e2) _ _ E) as F2.
    apply (lookup_out id) in F1; [|apply Nh; exact N1]. apply (lookup_out id) in F2; [|apply Nh; exact N2]. cbn [fst] in F1.
    cbn [apply_entry] in E2. rewrite F1, Hl in E2. destruct (modify_item_from_diff _ _ it x meta) as [it'| |] eqn:Em; try discriminate. cbn [bind] in E2.
    destruct l1 as [l1 n1]. cbn [astep fst] in E2. apply Ok_inj in E2; subst l2. cbn [fst] in *.
    exists it'. split; [|eapply modify_frame; eassumption]. rewrite F2, lookup_assign, Z.eqb_refl. cbn [andb].
    unfold has. rewrite F1, Hl. reflexivity.
Qed.
End Frame.

Lemma frameT_ok n : forall d m (a : mlistT n) x b, tablesT n d m -> apply_list_diffT n a x m = Ok b -> frameT n d x a b.
Proof.
  induction n as [|n IH]; intros d m a x b T E; [exact I|]. apply tablesT_for in T. cbn [frameT].
  eapply list_frame; [exact IH|exact T|exact E].
Qed.

Lemma root_frame {n} (def : rootdef n) T (a b : sabun n) d : wf_rootdef def -> root_table def = Ok T ->
  apply_root_diff a d T = Ok b -> frame_root def d a b.
Proof.
  intros WF ET E. destruct (root_table_ok def WF) as (T' & ET' & TF). rewrite ET in ET'. apply Ok_inj in ET'; subst T'.
  pose proof WF as ((ND & _) & _). unfold apply_root_diff in E.
  destruct (apply_root_params T (rd_params d) a) as [v1| |] eqn:E1; try discriminate. cbn [bind] in E.
  assert (Inv : forall id key mv, meta_get T id = Some (key, mv) -> exists v, hget key def = Some (id, v)).
  { intros id key mv H. assert (exists v, hget key (lift_def def) = Some (id, v)) as [v Hv].
    { apply (tf_inv _ _ _ TF) in H. destruct mv; [destruct H as (p & H & _)|destruct H as (x & H & _)|destruct H as (x & H & _)]; eauto. }
    rewrite hget_lift_def in Hv by exact ND. destruct (hget key def) as [[i w]|]; [|discriminate]. exists w. destruct w; congruence. }
  assert (F1 : forall key, (forall id mv, In id (map fst (rd_params d)) -> meta_get T id <> Some (key, mv)) -> hget key v1 = hget key a).
  { eapply mfold_frame; [|exact E1]. intros m id x m' H. cbn in H. destruct (meta_get T id) as [[key mv]|]; [|discriminate]. apply Ok_inj in H; subst m'.
    exists key, mv. split; [reflexivity|]. intros k N. apply hget_hset_other; exact N. }
  assert (Step : forall m id (o : option (ldiffT n)) m',
    (match meta_get T id with
    | None => Panic
    | Some (key, MMList tables) | Some (key, MOptMil tables) =>
        match hget key m with
        | Some (RMut (Some l)) =>
            match o with
            | Some x => l <- apply_list_diffT n l x tables ; Ok (hset key (RMut (Some l)) m)
            | None => Ok (hset key (RMut None) m)
            end
        | Some (RMut None) =>
            match o with
            | Some x => l <- diff_to_new_listT n x tables ; Ok (hset key (RMut (Some l)) m)
            | None => Ok m
            end
        | _ => Panic
        end
    | Some (_, MParam _ _) => Panic
    end) = Ok m' -> exists key mv, meta_get T id = Some (key, mv) /\ forall k, k <> key -> hget k m' = hget k m).
  { intros m id o m'. assert (Put : forall key v, m' = hset key v m -> forall k, k <> key -> hget k m' = hget k m) by (intros key v -> k N; apply hget_hset_other; exact N).
    destruct (meta_get T id) as [[key [pt vt|t|t]]|]; try discriminate; intros H; exists key; eexists; (split; [reflexivity|]);
    (destruct (hget key m) as [[p|[l|]]|]; try discriminate; (destruct o as [x|]; [|apply Ok_inj in H; first [eapply Put; symmetry; exact H|subst m'; reflexivity]]));
    [destruct (apply_list_diffT n l x t)|destruct (diff_to_new_listT n x t)|destruct (apply_list_diffT n l x t)|destruct (diff_to_new_listT n x t)];
    try discriminate; cbn [bind] in H; apply Ok_inj in H; eapply Put; symmetry; exact H. }
  split.
  - intros key H. transitivity (hget key v1).
    + eapply mfold_frame; [|exact E|]; [intros m id x m' Hs; exact (Step _ _ _ _ Hs)|].
      intros id mv I Hm. destruct (Inv _ _ _ Hm) as [v Hv]. destruct (H id v Hv) as [_ N]. exact (N I).
    + apply F1. intros id mv I Hm. destruct (Inv _ _ _ Hm) as [v Hv]. destruct (H id v Hv) as [N _]. exact (N I).
  - intros key id dd u x l Hk Np (l1 & l2 & El & N1 & N2) Hl.
    destruct (tf_list _ _ _ TF key id dd u) as (m & Hi & Hm); [rewrite hget_lift_def, Hk by exact ND; reflexivity|].
    assert (Key : forall i mv, meta_get T i = Some (key, mv) -> i = id).
    { intros i mv H. destruct (Inv _ _ _ H) as [v Hv]. congruence. }
    assert (H1 : hget key v1 = Some (RMut (Some l))).
    { rewrite F1; [exact Hl|]. intros i mv I H. rewrite (Key _ _ H) in I. exact (Np I). }
    rewrite El in E. unfold apply_root_lists in E. rewrite mfold_app in E. fold (apply_root_lists (n := n) T l1 v1) in E.
    destruct (apply_root_lists T l1 v1) as [w1| |] eqn:Ew1; try discriminate. cbn [bind mfold] in E.
    assert (H2 : hget key w1 = Some (RMut (Some l))).
    { rewrite <- H1. eapply mfold_frame; [|exact Ew1|]; [intros m0 i y m' Hs; exact (Step _ _ _ _ Hs)|].
      intros i mv I H. rewrite (Key _ _ H) in I. exact (N1 I). }
    rewrite Hm in E. destruct (apply_list_diffT n l x m) as [l'| |] eqn:Ha.
    + exists l'. split; [|eapply frameT_ok; eassumption].
      assert (E3 : apply_root_lists T l2 (hset key (RMut (Some l')) w1) = Ok b).
      { destruct u; rewrite H2, Ha in E; cbn [bind] in E; exact E. }
      rewrite <- (hget_hset_same key (RMut (Some l')) w1).
      eapply mfold_frame; [|exact E3|]; [intros m0 i y m' Hs; exact (Step _ _ _ _ Hs)|].
      intros i mv I H. rewrite (Key _ _ H) in I. exact (N2 I).
    + exfalso. destruct u; rewrite H2, Ha in E; discriminate.
    + exfalso. destruct u; rewrite H2, Ha in E; discriminate.
Qed.

(* ------------------------------------------------------------------ *)
(** * A document and itself *)

Lemma f64_eq_refl b : ~ is_nan b -> f64_eq b b = true.
Proof.
  intros H. unfold f64_eq, fdec. cbn [fbits ebits F64].
  destruct (Z.eqb_spec ((b / 2 ^ 52) mod 2 ^ 11) (2 ^ 11 - 1)) as [E|E].
  - destruct (Z.eqb_spec (b mod 2 ^ 52) 0) as [E'|E']; [cbn [feq]; apply eqb_reflx|]. exfalso. apply H. split; assumption.
  - destruct (Z.eqb_spec ((b / 2 ^ 52) mod 2 ^ 11) 0); cbn [feq]; apply Z.eqb_refl.
Qed.

Lemma identity_eq_refl p : no_nan_param p -> identity_eq p p = true.
Proof.
  destruct p as [q|q|q|q|q|q|q]; destruct q as [a| |]; intros H; cbn [identity_eq qv_ident]; try reflexivity.
  all: try apply eqb_reflx; try apply Z.eqb_refl.
  all: cbn [no_nan_param] in H.
  all: try (apply f64_eq_refl; exact H).
  all: try (unfold ptr_eq; apply Z.eqb_refl).
  induction H as [|b a Hb Ha IH]; [reflexivity|]. cbn [f64s_eq]. rewrite f64_eq_refl, IH by exact Hb. reflexivity.
Qed.

Lemma mfold_same {A B} (f : B -> A -> res B) l b : (forall e, In e l -> f b e = Ok b) -> mfold f l b = Ok b.
Proof.
  induction l as [|e l IH]; intros H; [reflexivity|]. cbn [mfold]. rewrite H by (left; reflexivity). cbn [bind]. apply IH. intros e' I. apply H. right; exact I.
Qed.

Section Same.
Context {D M L LD : Type}.
Variable inner_diff : L -> L -> D -> M -> res (option LD).
Variable inner_new : L -> D -> M -> res LD.
Variable itab : D -> M -> Prop.
Variable mem : Z -> list Z.
Variable ityped : L -> D -> Prop.
Variable inan : L -> Prop.
Hypothesis Hin : forall l d m, itab d m -> ityped l d -> inan l -> inner_diff l l d m = Ok None.

Lemma compare_same def meta it : tables_for itab def meta -> typed_item mem ityped it def -> no_nan_item inan it ->
  compare_items inner_diff inner_new it it def meta = Ok None.
Proof.
  intros TF (N1 & N2 & Tv & Tr) Nn. unfold compare_items. rewrite mfold_same.
  - cbn [bind]. assert (R : forall es acc, (forall e, In e es -> In e (it_refs it)) -> fold_left (compare_ref it def) es acc = acc).
    { induction es as [|[key q] es IH]; intros acc Hs; [reflexivity|]. cbn [fold_left]. rewrite IH by (intros e I; apply Hs; right; exact I).
      assert (G : hget key (it_refs it) = Some q) by (apply in_hget; [exact N2|apply Hs; left; reflexivity]).
      unfold compare_ref. destruct (Tr _ _ G) as (id & v & vt & Hd & _). rewrite Hd, G.
      assert (E : qv_str_eq q q = true) by (destruct q as [s| |]; cbn; try reflexivity; apply eqb_bytes_eq; reflexivity).
      rewrite E. reflexivity. }
    rewrite R by auto. reflexivity.
  - intros [key v] I. assert (G : hget key (it_values it) = Some v) by (apply in_hget; [exact N1|exact I]).
    pose proof (Tv _ _ G) as T. pose proof (Nn _ _ G) as NN. unfold compare_value. destruct v as [p|t|[l|]]; cbn [typed_value] in T.
    + destruct T as (id & p0 & vt & Hd & _). rewrite Hd, G, identity_eq_refl by exact NN. reflexivity.
    + reflexivity.
    + destruct T as (id & d & u & Hd & Tl). rewrite Hd. destruct (tf_list _ _ _ (ts_items _ _ _ TF) _ _ _ _ Hd) as (m & Hi & Hm).
      unfold get_tables. rewrite Hm, G. destruct u; rewrite (Hin l d m Hi Tl NN); reflexivity.
    + destruct T as (id & d & u & Hd & Tl). rewrite Hd. destruct (tf_list _ _ _ (ts_items _ _ _ TF) _ _ _ _ Hd) as (m & Hi & Hm).
      unfold get_tables. rewrite Hm, G. destruct u; reflexivity.
Qed.

Lemma list_same def meta l : tables_for itab def meta -> typed_list mem ityped l def -> no_nan_list inan l ->
  get_mlist_diff inner_diff inner_new l l def meta = Ok None.
Proof.
  intros TF (ND & _ & _ & _ & _ & _ & Ti) Nn. unfold get_mlist_diff. rewrite mfold_same.
  - cbn [bind].
    assert (R : forall es prev, (forall e, In e es -> In e (fst l)) -> exists p, mfold (diff_to inner_new l def meta) es ([], prev) = Ok ([], p)).
    { induction es as [|[id it] es IH]; intros prev Hs; [exists prev; reflexivity|]. cbn [mfold diff_to].
      assert (Hh : has id (fst l) = true) by (apply has_spec; apply in_map_iff; exists (id, it); split; [reflexivity|apply Hs; left; reflexivity]).
      rewrite Hh. cbn [negb bind]. apply IH. intros e I. apply Hs. right; exact I. }
    destruct (R (fst l) None (fun e I => I)) as [p ->]. reflexivity.
  - intros [id it] I. assert (G : lookup id (fst l) = Some it) by (apply in_lookup; [exact ND|exact I]).
    unfold diff_from. rewrite G, compare_same; [reflexivity|exact TF|apply (Ti id); exact G|apply (Nn id); exact G].
Qed.
End Same.

Lemma sameT mem n : forall l d m, tablesT n d m -> typedT mem n l d -> no_nanT n l -> get_mlist_diffT n l l d m = Ok None.
Proof.
  induction n as [|n IH]; intros l d m T H N; [destruct H|]. apply tablesT_for in T. cbn [get_mlist_diffT].
  eapply list_same; [exact IH|exact T|exact H|exact N].
Qed.

Lemma root_same {n} mem (def : rootdef n) T (f : sabun n) : wf_rootdef def -> root_table def = Ok T -> typed_root mem f def -> no_nan_root f ->
  (forall key id d, hget key def <> Some (id, RVMList d true)) -> get_root_diff f f def T = Ok (RDiff [] []).
Proof.
  intros WF ET (ND & Tv) Nn Nu. destruct (root_table_ok def WF) as (T' & ET' & TF). rewrite ET in ET'. apply Ok_inj in ET'; subst T'.
  pose proof WF as ((NDd & _) & _). unfold get_root_diff. rewrite mfold_same; [reflexivity|].
  intros [key v] I. assert (G : hget key f = Some v) by (apply in_hget; [exact ND|exact I]).
  pose proof (Tv _ _ G) as Ty. pose proof (Nn _ _ G) as NN. unfold root_value. destruct v as [p|[l|]].
  - rewrite G, identity_eq_refl by exact NN. reflexivity.
  - destruct Ty as (id & d & u & Hd & Tl). rewrite G, Hd. destruct u; [exfalso; eapply Nu; exact Hd|].
    destruct (tf_list _ _ _ TF key id d false) as (m & Hi & Hm); [rewrite hget_lift_def, Hd by exact NDd; reflexivity|].
    rewrite Hm, (sameT mem n l d m Hi Tl NN). reflexivity.
  - rewrite G. reflexivity.
Qed.
