(** Comparing two items and applying the difference, for one nesting depth. *)
From Verif Require Import Base CompactionModel CompactionSpec FloatModel FloatProofs StringCompactionModel StringCompactionProofs
  LinkedModel LinkedSpec LinkedProofs LinkedProofs2 DocModel DiffModel DiffWireModel DiffSpec DiffProofs.

(* ------------------------------------------------------------------ *)
(** * Sameness is an equivalence *)

Lemma same_float_refl a : same_float a a. Proof. left; reflexivity. Qed.
Lemma same_float_trans a b c : same_float a b -> same_float b c -> same_float a c.
Proof. unfold same_float. intros [->|[? ?]] [->|[? ?]]; auto. Qed.
Lemma same_float_sym a b : same_float a b -> same_float b a.
Proof. unfold same_float. intros [->|[? ?]]; auto. Qed.

Lemma Forall2_refl {A} (R : A -> A -> Prop) l : (forall a, R a a) -> Forall2 R l l.
Proof. intros H; induction l; constructor; auto. Qed.
Lemma Forall2_trans {A} (R : A -> A -> Prop) : (forall a b c, R a b -> R b c -> R a c) ->
  forall x y z, Forall2 R x y -> Forall2 R y z -> Forall2 R x z.
Proof.
  intros H x y z Hxy; revert z; induction Hxy; intros z Hyz; inversion Hyz; subst; constructor; eauto.
Qed.
Lemma Forall2_sym {A} (R : A -> A -> Prop) : (forall a b, R a b -> R b a) -> forall x y, Forall2 R x y -> Forall2 R y x.
Proof. intros H x y Hxy; induction Hxy; constructor; auto. Qed.

Lemma same_qv_refl {T} (R : T -> T -> Prop) q : (forall a, R a a) -> same_qv R q q.
Proof. destruct q; cbn; auto. Qed.
Lemma same_qv_trans {T} (R : T -> T -> Prop) a b c : (forall a b c, R a b -> R b c -> R a c) ->
  same_qv R a b -> same_qv R b c -> same_qv R a c.
Proof. destruct a, b, c; cbn; eauto; tauto. Qed.

Lemma same_param_refl p : same_param p p.
Proof.
  destruct p; cbn; try reflexivity; apply same_qv_refl; try (intros; reflexivity).
  - intros; apply same_float_refl.
  - intros; apply Forall2_refl, same_float_refl.
Qed.

Lemma same_param_trans p q r : same_param p q -> same_param q r -> same_param p r.
Proof.
  destruct p, q; cbn; try tauto; destruct r; cbn; try tauto.
  - congruence.
  - apply same_qv_trans, same_float_trans.
  - congruence.
  - apply same_qv_trans. unfold same_arc; congruence.
  - apply same_qv_trans. unfold same_arc; congruence.
  - apply same_qv_trans. apply Forall2_trans, same_float_trans.
  - apply same_qv_trans. unfold same_arc; congruence.
Qed.

Lemma same_qv_sym {T} (R : T -> T -> Prop) a b : (forall a b, R a b -> R b a) -> same_qv R a b -> same_qv R b a.
Proof. destruct a, b; cbn; auto. Qed.
Lemma same_param_sym p q : same_param p q -> same_param q p.
Proof.
  destruct p, q; cbn; try tauto; try congruence; apply same_qv_sym; try (unfold same_arc; congruence).
  - apply same_float_sym.
  - apply Forall2_sym, same_float_sym.
Qed.

Lemma same_opt_refl {A} (R : A -> A -> Prop) x : (forall a, R a a) -> same_opt R x x.
Proof. destruct x; cbn; auto. Qed.
Lemma same_opt_trans {A} (R : A -> A -> Prop) x y z : (forall a b c, R a b -> R b c -> R a c) ->
  same_opt R x y -> same_opt R y z -> same_opt R x z.
Proof. destruct x, y, z; cbn; eauto; tauto. Qed.

Section Equiv.
Context {L : Type}.
Variable inner : L -> L -> Prop.
Hypothesis Irefl : forall a, inner a a.
Hypothesis Itrans : forall a b c, inner a b -> inner b c -> inner a c.

Lemma same_value_refl v : same_value inner v v.
Proof. destruct v; cbn; [apply same_param_refl|reflexivity|apply same_opt_refl, Irefl]. Qed.
Lemma same_value_trans u v w : same_value inner u v -> same_value inner v w -> same_value inner u w.
Proof.
  destruct u, v; cbn; try tauto; destruct w; cbn; try tauto.
  - apply same_param_trans.
  - congruence.
  - apply same_opt_trans, Itrans.
Qed.
Lemma same_item_refl a : same_item inner a a.
Proof. split; intros key; [apply same_opt_refl, same_value_refl|reflexivity]. Qed.
Lemma same_item_trans a b c : same_item inner a b -> same_item inner b c -> same_item inner a c.
Proof.
  intros [A1 A2] [B1 B2]; split; intros key; [|congruence].
  eapply same_opt_trans; [apply same_value_trans|apply A1|apply B1].
Qed.
Lemma same_list_refl ord nx a : same_list ord nx inner a a.
Proof.
  split; [destruct ord; [reflexivity|apply Permutation_refl]|]. split; [|reflexivity].
  intros id. apply same_opt_refl, same_item_refl.
Qed.
Lemma same_list_trans ord nx a b c : same_list ord nx inner a b -> same_list ord nx inner b c -> same_list ord nx inner a c.
Proof.
  intros (A1 & A2 & A3) (B1 & B2 & B3). split; [|split].
  - destruct ord; [congruence|eapply Permutation_trans; eassumption].
  - intros id. eapply same_opt_trans; [apply same_item_trans|apply A2|apply B2].
  - intros E. rewrite A3, B3 by exact E. reflexivity.
Qed.
End Equiv.

Lemma sameT_refl ord nx n : forall a, sameT ord nx n a a.
Proof. induction n as [|n IH]; intros a; [exact I|]. cbn [sameT]. apply same_list_refl, IH. Qed.
Lemma sameT_trans ord nx n : forall a b c, sameT ord nx n a b -> sameT ord nx n b c -> sameT ord nx n a c.
Proof. induction n as [|n IH]; intros a b c; [intros; exact I|]. cbn [sameT]. apply same_list_trans, IH. Qed.

(* ------------------------------------------------------------------ *)
(** * What [identity_eq] says *)

Lemma is_zero_fdec b s : u64_range b -> fdec F64 b = FNum s 0 -> is_zero b.
Proof.
  intros H E. pose proof (fdec_zero F64 b s wf_F64 H E) as ->. destruct s; [right|left]; reflexivity.
Qed.

Lemma f64_eq_same a b : u64_range a -> u64_range b -> f64_eq a b = true -> same_float a b.
Proof.
  intros Ha Hb. unfold f64_eq.
  pose proof (fenc_fdec F64 a wf_F64 Ha) as Ea. pose proof (fenc_fdec F64 b wf_F64 Hb) as Eb.
  destruct (fdec F64 a) as [|s|s n] eqn:Da, (fdec F64 b) as [|s'|s' n'] eqn:Db; cbn [feq]; try discriminate.
  - intros H. apply eqb_prop in H; subst s'. left. rewrite <- Ea, <- Eb by discriminate. reflexivity.
  - intros H. assert (0 <= n) by (apply (fdec_nonneg F64 a s n); [cbn; lia|exact Da]).
    assert (0 <= n') by (apply (fdec_nonneg F64 b s' n'); [cbn; lia|exact Db]).
    destruct (Z.eq_dec n' 0) as [->|].
    + right. assert (n = 0) by (unfold signed in H; destruct s, s'; lia). subst n.
      split; eapply is_zero_fdec; eassumption.
    + destruct (feq_num s n s' n') as [-> ->]; [assumption|lia|exact H|].
      left. rewrite <- Ea, <- Eb by discriminate. reflexivity.
Qed.

Lemma f64s_eq_same : forall a b, Forall u64_range a -> Forall u64_range b -> f64s_eq a b = true -> Forall2 same_float a b.
Proof.
  induction a as [|x a IH]; intros [|y b] Ha Hb H; cbn in H; try discriminate; [constructor|].
  apply Forall_cons_iff in Ha as [Hx Ha]. apply Forall_cons_iff in Hb as [Hy Hb].
  apply andb_prop in H as [H1 H2]. constructor; [apply f64_eq_same; assumption|auto].
Qed.

Lemma identity_eq_same mem p q : wf_param mem p -> wf_param mem q -> identity_eq p q = true -> same_param p q.
Proof.
  destruct p as [a|a|a|a|a|a|a], q as [b|b|b|b|b|b|b]; cbn; try discriminate; destruct a, b; cbn; try discriminate; try tauto; intros Ha Hb H.
  - apply eqb_prop in H. congruence.
  - apply f64_eq_same; assumption.
  - apply Z.eqb_eq in H. congruence.
  - apply Z.eqb_eq in H. unfold same_arc. destruct Ha as [-> _], Hb as [-> _]. congruence.
  - apply Z.eqb_eq in H. unfold same_arc. destruct Ha as [-> _], Hb as [-> _]. congruence.
  - apply f64s_eq_same; tauto.
  - apply Z.eqb_eq in H. unfold same_arc. destruct Ha as [-> _], Hb as [-> _]. congruence.
Qed.

Lemma fresh_same p : same_param (fresh_param p) p.
Proof.
  destruct p as [a|a|a|a|a|a|a]; try apply same_param_refl; cbn; destruct a; cbn; try exact I; reflexivity.
Qed.

Lemma qv_str_eq_true a b : qv_str_eq a b = true -> a = b.
Proof. destruct a, b; cbn; try discriminate; try reflexivity. intros H. apply eqb_bytes_eq in H. congruence. Qed.

(* ------------------------------------------------------------------ *)
(** * Putting the entries of a difference into a map *)

Section Put.
Context {M X V : Type}.
Variable T : metatable M.
Variable miss : res (hmap V).
Variable f : metaval M -> option V -> X -> res V.
Hypothesis Tinj : forall id id' key mv mv', meta_get T id = Some (key, mv) -> meta_get T id' = Some (key, mv') -> id = id'.

Definition put (r : hmap V) (e : Z * X) : res (hmap V) :=
  match meta_get T (fst e) with
  | Some (key, mv) => v <- f mv (hget key r) (snd e) ; Ok (hset key v r)
  | None => miss
  end.

Lemma put_all : forall xs r, NoDup (map fst xs) ->
  (forall id x, In (id, x) xs -> exists key mv v, meta_get T id = Some (key, mv) /\ f mv (hget key r) x = Ok v) ->
  exists r', mfold put xs r = Ok r' /\
    (forall id key mv, meta_get T id = Some (key, mv) ->
       match lookup id xs with
       | Some x => exists v, f mv (hget key r) x = Ok v /\ hget key r' = Some v
       | None => hget key r' = hget key r
       end) /\
    (forall key, (forall id mv, meta_get T id <> Some (key, mv)) -> hget key r' = hget key r).
Proof.
  induction xs as [|[id0 x0] xs IH]; intros r ND H.
  - exists r. repeat split; reflexivity.
  - cbn [map fst] in ND. apply NoDup_cons_iff in ND as [NI ND].
    destruct (H id0 x0 (or_introl eq_refl)) as (key0 & mv0 & v0 & E0 & F0).
    assert (P0 : put r (id0, x0) = Ok (hset key0 v0 r)) by (unfold put; cbn [fst snd]; rewrite E0, F0; reflexivity).
    cbn [mfold]. rewrite P0; cbn [bind].
    assert (Keep : forall id key mv, meta_get T id = Some (key, mv) -> id <> id0 -> hget key (hset key0 v0 r) = hget key r).
    { intros id key mv E N. apply hget_hset_other. intros ->. apply N. eapply Tinj; eassumption. }
    destruct (IH (hset key0 v0 r) ND) as (r' & E' & G & G').
    { intros id x I. destruct (H id x (or_intror I)) as (key & mv & v & E & F). exists key, mv, v. split; [exact E|].
      rewrite (Keep id key mv E); [exact F|]. intros ->. apply NI. apply in_map_iff. exists (id0, x). auto. }
    exists r'. split; [exact E'|]. split.
    + intros id key mv E. specialize (G id key mv E). cbn [lookup]. destruct (Z.eqb_spec id id0).
      * subst id. rewrite E0 in E. injection E as <- <-.
        destruct (lookup id0 xs) eqn:El.
        -- exfalso. apply NI. apply lookup_in' in El. apply in_map_iff. exists (id0, x). auto.
        -- exists v0. split; [exact F0|]. rewrite G. apply hget_hset_same.
      * rewrite (Keep id key mv E) in G by assumption. exact G.
    + intros key N. rewrite G' by exact N. apply hget_hset_other. intros ->. eapply N; exact E0.
Qed.
End Put.

(* ------------------------------------------------------------------ *)
(** * Items *)

Section Items.
Context {D M L LD : Type}.
Variable mem : Z -> list Z.
Variable inner_diff : L -> L -> D -> M -> res (option LD).
Variable inner_new : L -> D -> M -> res LD.
Variable inner_apply : L -> LD -> M -> res L.
Variable inner_make : LD -> M -> res L.
Variable inner_fresh : LD -> LD.
Variable itab : D -> M -> Prop.
Variable typed : L -> D -> Prop.
Variable same : L -> L -> Prop.
Variable later : L -> L -> Prop.
Variable nocil : L -> Prop.
Variable next : L -> L -> Prop.
Variable nx : bool.
Hypothesis Srefl : forall a, same a a.
Hypothesis Strans : forall a b c, same a b -> same b c -> same a c.
Hypothesis Hnew : forall l d m, itab d m -> typed l d -> nocil l ->
  exists x, inner_new l d m = Ok x /\ exists r, inner_make (inner_fresh x) m = Ok r /\ same r l.
Hypothesis Hdiff : forall a b d m, itab d m -> typed a d -> typed b d -> later a b -> (nx = true -> next a b) ->
  exists od, inner_diff a b d m = Ok od /\
    match od with
    | None => same a b
    | Some x => forall a', same a' a -> exists r, inner_apply a' (inner_fresh x) m = Ok r /\ same r b
    end.

(** the change of a parameter: [fv] before, [w] after *)
Definition pchange (fv w : option (lval L)) : option param :=
  match w with
  | Some (LParam p) =>
      match fv with
      | Some (LParam fp) => if negb (identity_eq p fp) then Some p else None
      | _ => Some p
      end
  | _ => None
  end.

(** the change of a list *)
Definition lchange (fv : option (lval L)) (mil : option L) (d : D) (m : M) (x : option (option LD)) : Prop :=
  match fv, mil with
  | Some (LMil None), None => x = None
  | Some (LMil (Some a)), Some b => exists od, inner_diff a b d m = Ok od /\ x = option_map Some od
  | Some (LMil (Some _)), None => x = Some None
  | _, Some b => exists y, inner_new b d m = Ok y /\ x = Some (Some y)
  | _, None => x = Some None
  end.
Definition lspec (members : hmap (Z * ldefval D)) (mv : metaval M) (key : name) (fv w : option (lval L)) (x : option (option LD)) : Prop :=
  match w with
  | Some (LMil mil) => exists id d u m, hget key members = Some (id, DMil d u) /\
      mv = (if u then MOptMil m else MMList m) /\ itab d m /\ lchange fv mil d m x
  | _ => x = None
  end.

Record collected (members : hmap (Z * ldefval D)) (T : metatable M) (fv w : name -> option (lval L))
    (params : bmap param) (lists : bmap (option LD)) : Prop := {
  c_sp : increasing 0 params;
  c_sl : increasing 0 lists;
  c_p : forall id key mv, meta_get T id = Some (key, mv) -> lookup id params = pchange (fv key) (w key);
  c_l : forall id key mv, meta_get T id = Some (key, mv) -> lspec members mv key (fv key) (w key) (lookup id lists);
  c_none : forall id, meta_get T id = None -> lookup id params = None /\ lookup id lists = None }.

Lemma get_tables_list (T : metatable M) id key (u : bool) m :
  meta_get T id = Some (key, if u then MOptMil m else MMList m) -> get_tables T id = Some m.
Proof. unfold get_tables. intros ->. destruct u; reflexivity. Qed.

Lemma collect_ok def meta (from to : item L) :
  table_for itab (ld_members def) (mt_items meta) -> Forall (fun e => 0 <= fst (snd e)) (ld_members def) ->
  typed_item mem typed from def -> typed_item mem typed to def ->
  (forall key w, hget key (it_values to) = Some w -> later_value nocil later (hget key (it_values from)) w) ->
  (nx = true -> next_item next from to) ->
  exists params lists, mfold (compare_value inner_diff inner_new from def meta) (it_values to) ([], []) = Ok (params, lists) /\
    collected (ld_members def) (mt_items meta) (fun k => hget k (it_values from)) (fun k => hget k (it_values to)) params lists.
Proof.
  intros TF NN (_ & _ & TyF & _) (ND & _ & TyT & _) LV NX.
  destruct (mfold_inv (compare_value inner_diff inner_new from def meta)
    (fun p acc => collected (ld_members def) (mt_items meta) (fun k => hget k (it_values from)) (fun k => hget k p) (fst acc) (snd acc))
    (it_values to) ([], [])) as ([params lists] & E & C).
  - split; cbn; auto.
  - intros p [key0 w0] r [params lists] Ep C. cbn [fst snd] in C.
    assert (Hw0 : hget key0 (it_values to) = Some w0).
    { apply in_hget; [exact ND|]. rewrite Ep. apply in_elt. }
    assert (Hp0 : hget key0 p = None).
    { apply hget_none. rewrite Ep, map_app in ND. cbn [map fst] in ND. apply NoDup_remove_2 in ND.
      intros I; apply ND, in_or_app; auto. }
    assert (Hk : forall key, hget key (p ++ [(key0, w0)]) = if eqb_bytes key0 key then Some w0 else hget key p).
    { intros key. rewrite hget_app. cbn [hget]. destruct (eqb_bytes key0 key) eqn:Ek.
      - apply eqb_bytes_eq in Ek; subst key. rewrite Hp0. reflexivity.
      - destruct (hget key p); reflexivity. }
    pose proof (TyT _ _ Hw0) as Ty0. pose proof (LV _ _ Hw0) as Lv0.
    assert (Kid : forall id0 v0 id key mv, hget key0 (ld_members def) = Some (id0, v0) ->
              meta_get (mt_items meta) id = Some (key, mv) -> id <> id0 -> eqb_bytes key0 key = false).
    { intros id0 v0 id key mv H0 Hm N. destruct (eqb_bytes key0 key) eqn:Ek; [|reflexivity]. exfalso. apply N.
      apply eqb_bytes_eq in Ek; subst key. apply (tf_inv _ _ _ TF) in Hm.
      destruct mv; destruct Hm as (? & ? & ?); congruence. }
    assert (NN0 : forall id0 v0, hget key0 (ld_members def) = Some (id0, v0) -> 0 <= id0).
    { intros id0 v0 H0. rewrite Forall_forall in NN. apply (NN (key0, (id0, v0))), hget_in; exact H0. }
    (** a step that records nothing *)
    assert (Skip : pchange (hget key0 (it_values from)) (Some w0) = None ->
              (forall id mv, meta_get (mt_items meta) id = Some (key0, mv) ->
                 lspec (ld_members def) mv key0 (hget key0 (it_values from)) (Some w0) None) ->
              collected (ld_members def) (mt_items meta) (fun k => hget k (it_values from))
                (fun k => hget k (p ++ [(key0, w0)])) params lists).
    { intros Hpc Hls. split; [apply (c_sp _ _ _ _ _ _ C)|apply (c_sl _ _ _ _ _ _ C)| | |apply (c_none _ _ _ _ _ _ C)].
      - intros id key mv Hm. rewrite (c_p _ _ _ _ _ _ C id key mv Hm), Hk.
        destruct (eqb_bytes key0 key) eqn:Ek; [|reflexivity]. apply eqb_bytes_eq in Ek; subst key. rewrite Hp0, Hpc. reflexivity.
      - intros id key mv Hm. pose proof (c_l _ _ _ _ _ _ C id key mv Hm) as G; cbv beta in G. rewrite Hk.
        destruct (eqb_bytes key0 key) eqn:Ek; [|exact G]. apply eqb_bytes_eq in Ek; subst key. rewrite Hp0 in G. cbn [lspec] in G.
        rewrite G. eapply Hls; exact Hm. }
    (** recording a list *)
    assert (PutList : forall id0 d u mil y m, w0 = LMil mil -> hget key0 (ld_members def) = Some (id0, DMil d u) ->
              itab d m -> meta_get (mt_items meta) id0 = Some (key0, if u then MOptMil m else MMList m) ->
              lchange (hget key0 (it_values from)) mil d m (Some y) ->
              collected (ld_members def) (mt_items meta) (fun k => hget k (it_values from))
                (fun k => hget k (p ++ [(key0, w0)])) params (binsert id0 y lists)).
    { intros id0 d u mil y m -> H0 Hi Hm0 Hl.
      split; [apply (c_sp _ _ _ _ _ _ C)|apply increasing_binsert; [eapply NN0; eassumption|apply (c_sl _ _ _ _ _ _ C)]| | |].
      - intros id key mv Hm. rewrite (c_p _ _ _ _ _ _ C id key mv Hm), Hk.
        destruct (eqb_bytes key0 key) eqn:Ek; [|reflexivity]. apply eqb_bytes_eq in Ek; subst key. rewrite Hp0. reflexivity.
      - intros id key mv Hm. pose proof (c_l _ _ _ _ _ _ C id key mv Hm) as G; cbv beta in G. rewrite Hk, lookup_binsert.
        destruct (Z.eqb_spec id id0).
        + subst id. rewrite Hm0 in Hm. injection Hm as <- <-. rewrite eqb_bytes_refl. cbn [lspec]. exists id0, d, u, m. auto 6.
        + rewrite (Kid id0 _ id key mv H0 Hm n). exact G.
      - intros id Hm. rewrite lookup_binsert. destruct (Z.eqb_spec id id0); [congruence|]. apply (c_none _ _ _ _ _ _ C); exact Hm. }
    destruct w0 as [q|t|mil]; cbn [typed_value] in Ty0.
    + destruct Ty0 as (id0 & p0 & vt & H0 & Fit). pose proof (tf_param _ _ _ TF _ _ _ _ H0) as Hm0.
      cbn [compare_value]. rewrite H0.
      assert (PutP : collected (ld_members def) (mt_items meta) (fun k => hget k (it_values from))
                (fun k => hget k (p ++ [(key0, LParam q)])) (binsert id0 q params) lists \/ pchange (hget key0 (it_values from)) (Some (LParam q)) = None).
      { destruct (pchange (hget key0 (it_values from)) (Some (LParam q))) as [q'|] eqn:Epc; [left|right; reflexivity].
        assert (q' = q).
        { cbn in Epc. destruct (hget key0 (it_values from)) as [[| |]|]; try destruct (negb _); congruence. }
        subst q'. split; [apply increasing_binsert; [eapply NN0; eassumption|apply (c_sp _ _ _ _ _ _ C)]|apply (c_sl _ _ _ _ _ _ C)| | |].
        - intros id key mv Hm. rewrite lookup_binsert, Hk. destruct (Z.eqb_spec id id0).
          + subst id. rewrite Hm0 in Hm. injection Hm as <- <-. rewrite eqb_bytes_refl. congruence.
          + rewrite (Kid id0 _ id key mv H0 Hm n). apply (c_p _ _ _ _ _ _ C id key mv Hm).
        - intros id key mv Hm. pose proof (c_l _ _ _ _ _ _ C id key mv Hm) as G; cbv beta in G. rewrite Hk.
          destruct (eqb_bytes key0 key) eqn:Ek; [|exact G]. apply eqb_bytes_eq in Ek; subst key. rewrite Hp0 in G. exact G.
        - intros id Hm. rewrite lookup_binsert. destruct (Z.eqb_spec id id0); [congruence|]. apply (c_none _ _ _ _ _ _ C); exact Hm. }
      cbn [pchange] in PutP. destruct (hget key0 (it_values from)) as [[fp|t|o]|] eqn:Ef.
      * destruct (negb (identity_eq q fp)) eqn:Ei.
        -- eexists; split; [reflexivity|]. destruct PutP as [G|G]; [exact G|discriminate].
        -- eexists; split; [reflexivity|]. apply Skip; [cbn; rewrite Ei; reflexivity|]. intros; reflexivity.
      * eexists; split; [reflexivity|]. destruct PutP as [G|G]; [exact G|discriminate].
      * eexists; split; [reflexivity|]. destruct PutP as [G|G]; [exact G|discriminate].
      * eexists; split; [reflexivity|]. destruct PutP as [G|G]; [exact G|discriminate].
    + cbn [compare_value]. eexists; split; [reflexivity|]. apply Skip; [reflexivity|]. intros; reflexivity.
    + destruct Ty0 as (id0 & d & u & H0 & Tm). destruct (tf_list _ _ _ TF _ _ _ _ H0) as (m & Hi & Hm0).
      cbn [compare_value]. rewrite H0, (get_tables_list _ _ _ _ _ Hm0).
      specialize (PutList id0 d u mil). cbn [lchange] in PutList.
      destruct (hget key0 (it_values from)) as [[fp|t|[a|]]|] eqn:Ef.
      * cbn in Lv0. contradiction.
      * cbn in Lv0. contradiction.
      * destruct mil as [b|].
        -- pose proof (TyF _ _ Ef) as TyA. cbn in TyA. destruct TyA as (id1 & d1 & u1 & H1 & TyA).
           rewrite H0 in H1. injection H1 as <- <- <-. cbn [later_value] in Lv0.
           destruct (Hdiff a b d m Hi TyA Tm Lv0) as (od & Eod & _).
           { intros Enx. eapply NX; eassumption. }
           rewrite Eod. cbn [bind]. destruct od as [x|].
           ++ eexists; split; [reflexivity|]. apply (PutList _ m eq_refl H0 Hi Hm0). eexists; split; [exact Eod|reflexivity].
           ++ eexists; split; [reflexivity|]. apply Skip; [reflexivity|]. intros id mv Hm.
              cbn [lspec]. exists id0, d, u, m. split; [exact H0|]. split; [|split; [exact Hi|]].
              ** assert (id = id0) by (eapply (tf_inj _ _ _ TF); eassumption). subst id. congruence.
              ** cbn [lchange]. eexists; split; [exact Eod|reflexivity].
        -- eexists; split; [reflexivity|]. apply (PutList _ m eq_refl H0 Hi Hm0). reflexivity.
      * destruct mil as [b|].
        -- cbn [later_value] in Lv0. destruct (Hnew b d m Hi Tm Lv0) as (x & Ex & _). rewrite Ex. cbn [bind].
           eexists; split; [reflexivity|]. apply (PutList _ m eq_refl H0 Hi Hm0). eexists; split; [exact Ex|reflexivity].
        -- eexists; split; [reflexivity|]. apply Skip; [reflexivity|]. intros id mv Hm. cbn [lspec]. exists id0, d, u, m.
           split; [exact H0|]. split; [|split; [exact Hi|reflexivity]].
           assert (id = id0) by (eapply (tf_inj _ _ _ TF); eassumption). subst id. congruence.
      * destruct mil as [b|].
        -- cbn [later_value] in Lv0. destruct (Hnew b d m Hi Tm Lv0) as (x & Ex & _). rewrite Ex. cbn [bind].
           eexists; split; [reflexivity|]. apply (PutList _ m eq_refl H0 Hi Hm0). eexists; split; [exact Ex|reflexivity].
        -- eexists; split; [reflexivity|]. apply (PutList _ m eq_refl H0 Hi Hm0). reflexivity.
  - exists params, lists. split; [exact E|exact C].
Qed.

(** ** References *)

Definition rchange (fv w : option (qv (list Z))) : option (qv (list Z)) :=
  match w with
  | Some q => match fv with Some f => if negb (qv_str_eq f q) then Some q else None | None => Some q end
  | None => None
  end.

Lemma collect_refs_ok def (meta : metatables M) (from to : item L) : tables_for itab def meta -> typed_item mem typed to def ->
  let refs := fold_left (compare_ref from def) (it_refs to) [] in
  increasing 0 refs /\
  (forall id key mv, meta_get (mt_refs meta) id = Some (key, mv) -> lookup id refs = rchange (hget key (it_refs from)) (hget key (it_refs to))) /\
  (forall id, meta_get (mt_refs meta) id = None -> lookup id refs = None).
Proof.
  intros TS (_ & ND & _ & TyR).
  destruct (mfold_inv (fun acc e => Ok (compare_ref from def acc e))
    (fun p refs => increasing 0 refs /\
       (forall id key mv, meta_get (mt_refs meta) id = Some (key, mv) -> lookup id refs = rchange (hget key (it_refs from)) (hget key p)) /\
       (forall id, meta_get (mt_refs meta) id = None -> lookup id refs = None))
    (it_refs to) []) as (refs & E & C).
  - cbn. auto.
  - intros p [key0 q0] r refs Ep (C1 & C2 & C3). eexists; split; [reflexivity|].
    assert (Hw0 : hget key0 (it_refs to) = Some q0) by (apply in_hget; [exact ND|]; rewrite Ep; apply in_elt).
    assert (Hp0 : hget key0 p = None).
    { apply hget_none. rewrite Ep, map_app in ND. cbn [map fst] in ND. apply NoDup_remove_2 in ND.
      intros I; apply ND, in_or_app; auto. }
    assert (Hk : forall key, hget key (p ++ [(key0, q0)]) = if eqb_bytes key0 key then Some q0 else hget key p).
    { intros key. rewrite hget_app. cbn [hget]. destruct (eqb_bytes key0 key) eqn:Ek.
      - apply eqb_bytes_eq in Ek; subst key. rewrite Hp0. reflexivity.
      - destruct (hget key p); reflexivity. }
    destruct (TyR _ _ Hw0) as (id0 & v & vt & H0 & _). cbn [compare_ref]. rewrite H0.
    assert (Hm0 : meta_get (mt_refs meta) id0 = Some (key0, MParam TString vt)).
    { apply (ts_refs _ _ _ TS). eauto. }
    assert (NN0 : 0 <= id0).
    { pose proof (ts_rnum _ _ _ TS) as F. rewrite Forall_forall in F. apply (F (key0, (id0, (v, vt)))), hget_in; exact H0. }
    assert (Kid : forall id key mv, meta_get (mt_refs meta) id = Some (key, mv) -> id <> id0 -> eqb_bytes key0 key = false).
    { intros id key mv Hm N. destruct (eqb_bytes key0 key) eqn:Ek; [|reflexivity]. exfalso. apply N.
      apply eqb_bytes_eq in Ek; subst key. apply (ts_refs _ _ _ TS) in Hm as (? & ? & ? & _). congruence. }
    assert (PutR : rchange (hget key0 (it_refs from)) (Some q0) = Some q0 ->
       increasing 0 (binsert id0 q0 refs) /\
       (forall id key mv, meta_get (mt_refs meta) id = Some (key, mv) -> lookup id (binsert id0 q0 refs) = rchange (hget key (it_refs from)) (hget key (p ++ [(key0, q0)]))) /\
       (forall id, meta_get (mt_refs meta) id = None -> lookup id (binsert id0 q0 refs) = None)).
    { intros Er. split; [apply increasing_binsert; assumption|]. split.
      - intros id key mv Hm. rewrite lookup_binsert, Hk. destruct (Z.eqb_spec id id0).
        + subst id. rewrite Hm0 in Hm. injection Hm as <- <-. rewrite eqb_bytes_refl. congruence.
        + rewrite (Kid id key mv Hm n). eapply C2; exact Hm.
      - intros id Hm. rewrite lookup_binsert. destruct (Z.eqb_spec id id0); [congruence|]. auto. }
    cbn [rchange] in PutR. destruct (hget key0 (it_refs from)) as [fq|] eqn:Ef; [|apply PutR; reflexivity].
    destruct (negb (qv_str_eq fq q0)) eqn:Eq; [apply PutR; reflexivity|].
    split; [exact C1|]. split; [|exact C3]. intros id key mv Hm. rewrite (C2 id key mv Hm), Hk.
    destruct (eqb_bytes key0 key) eqn:Ek; [|reflexivity]. apply eqb_bytes_eq in Ek; subst key. rewrite Hp0, Ef. cbn. rewrite Eq. reflexivity.
  - assert (E' : forall l acc, mfold (fun acc e => Ok (compare_ref from def acc e)) l acc = Ok (fold_left (compare_ref from def) l acc)).
    { induction l as [|a l IH]; intros acc; cbn; auto. }
    rewrite E' in E. apply Ok_inj in E; subst refs. exact C.
Qed.

(** ** Applying *)

Definition lput (mv : metaval M) (o : option (lval L)) (x : option LD) : res (lval L) :=
  match mv with
  | MMList t | MOptMil t =>
      match x with
      | Some ld => match o with
                   | Some (LMil (Some m)) => m <- inner_apply m ld t ; Ok (LMil (Some m))
                   | _ => m <- inner_make ld t ; Ok (LMil (Some m))
                   end
      | None => Ok (LMil None)
      end
  | MParam _ _ => Err
  end.

Lemma apply_lists_put lists (T : metatable M) r : apply_lists inner_apply inner_make lists T r = mfold (put T Err lput) lists r.
Proof.
  apply mfold_ext. intros a [id x] _. unfold put; cbn [fst snd]. destruct (meta_get T id) as [[key [pt vt|t|t]]|]; cbn; try reflexivity.
  - destruct x; [|reflexivity]. destruct (hget key a) as [[| |[m|]]|]; cbn;
    repeat match goal with |- context [bind ?e _] => destruct e; cbn end; reflexivity.
  - destruct x; [|reflexivity]. destruct (hget key a) as [[| |[m|]]|]; cbn;
    repeat match goal with |- context [bind ?e _] => destruct e; cbn end; reflexivity.
Qed.

Lemma apply_params_put params (T : metatable M) (r : hmap (lval L)) :
  apply_params params T r = mfold (put T Err (fun _ _ p => Ok (LParam p))) params r.
Proof. apply mfold_ext. intros a [id x] _. unfold put; cbn [fst snd]. destruct (meta_get T id) as [[key mv]|]; reflexivity. Qed.

Lemma apply_refs_put refs (T : metatable M) r : apply_refs refs T r = mfold (put T Err (fun _ _ q => Ok q)) refs r.
Proof. apply mfold_ext. intros a [id x] _. unfold put; cbn [fst snd]. destruct (meta_get T id) as [[key mv]|]; reflexivity. Qed.

Lemma lput_ok (u : bool) fv fv' mil d m y :
  itab d m -> same_opt (same_value same) fv' fv ->
  later_value nocil later fv (LMil mil) -> lchange fv mil d m (Some y) ->
  (forall a, fv = Some (LMil (Some a)) -> typed a d) -> (forall b, mil = Some b -> typed b d) ->
  (nx = true -> forall a b, fv = Some (LMil (Some a)) -> mil = Some b -> next a b) ->
  exists v, lput (if u then MOptMil m else MMList m) fv' (option_map inner_fresh y) = Ok v /\ same_value same v (LMil mil).
Proof.
  intros Hi S Lv C Ta Tb NX.
  assert (Go : forall b y0, (fv' = None \/ fv' = Some (LMil None)) -> mil = Some b -> nocil b -> inner_new b d m = Ok y0 -> y = Some y0 ->
    exists v, lput (if u then MOptMil m else MMList m) fv' (option_map inner_fresh y) = Ok v /\ same_value same v (LMil mil)).
  { intros b y0 F -> Hn Hy ->. destruct (Hnew b d m Hi (Tb _ eq_refl) Hn) as (x & Ex & r & Er & Sr).
    rewrite Hy in Ex. apply Ok_inj in Ex; subst y0. exists (LMil (Some r)).
    destruct u; cbn; (destruct F as [-> | ->]; cbn; rewrite Er; (split; [reflexivity|exact Sr])). }
  destruct fv as [[fp|t|[a|]]|]; cbn in Lv; try contradiction.
  - destruct mil as [b|]; cbn in C.
    + destruct C as (od & Eod & Ey). destruct od as [x|]; [|discriminate]. apply Some_inj in Ey; subst y.
      destruct (Hdiff a b d m Hi (Ta _ eq_refl) (Tb _ eq_refl) Lv) as (od & Eod' & H).
      { intros E; eapply NX; [exact E|reflexivity|reflexivity]. }
      rewrite Eod in Eod'. apply Ok_inj in Eod'; subst od.
      destruct fv' as [[| |[a'|]]|]; cbn in S; try contradiction.
      destruct (H a' S) as (r & Er & Sr). exists (LMil (Some r)).
      destruct u; cbn; rewrite Er; (split; [reflexivity|exact Sr]).
    + apply Some_inj in C; subst y. exists (LMil None). destruct u; (split; [reflexivity|exact I]).
  - assert (F : fv' = Some (LMil None)) by (destruct fv' as [[| |[|]]|]; cbn in S; try contradiction; reflexivity).
    destruct mil as [b|]; cbn in C; [|discriminate].
    destruct C as (y0 & E0 & Ey). apply Some_inj in Ey. eapply Go; eauto.
  - assert (F : fv' = None) by (destruct fv'; cbn in S; [contradiction|reflexivity]).
    destruct mil as [b|]; cbn in C.
    + destruct C as (y0 & E0 & Ey). apply Some_inj in Ey. eapply Go; eauto.
    + apply Some_inj in C; subst y. exists (LMil None). destruct u; (split; [reflexivity|exact I]).
Qed.

Lemma lkeep fv mil d m : itab d m -> later_value nocil later fv (LMil mil) -> lchange fv mil d m None ->
  (forall a, fv = Some (LMil (Some a)) -> typed a d) -> (forall b, mil = Some b -> typed b d) ->
  (nx = true -> forall a b, fv = Some (LMil (Some a)) -> mil = Some b -> next a b) ->
  same_opt (same_value same) fv (Some (LMil mil)).
Proof.
  intros Hi Lv C Ta Tb NX.
  destruct fv as [[fp|t|[a|]]|]; cbn in Lv; try contradiction.
  - destruct mil as [b|]; cbn in C; [|discriminate].
    destruct C as (od & Eod & Ey). destruct od as [x|]; [discriminate|].
    destruct (Hdiff a b d m Hi (Ta _ eq_refl) (Tb _ eq_refl) Lv) as (od & Eod' & H).
    { intros E; eapply NX; [exact E|reflexivity|reflexivity]. }
    rewrite Eod in Eod'. apply Ok_inj in Eod'; subst od. exact H.
  - destruct mil as [b|]; cbn in C; [|exact I]. destruct C as (y0 & E0 & Ey); discriminate.
  - destruct mil as [b|]; cbn in C; [|discriminate]. destruct C as (y0 & E0 & Ey); discriminate.
Qed.

Lemma qv_str_eq_sym_false f q : negb (qv_str_eq f q) = false -> f = q.
Proof. intros H. apply negb_false_iff in H. apply qv_str_eq_true; exact H. Qed.

Lemma modify_ok def meta (from to : item L) params lists :
  tables_for itab def meta -> typed_item mem typed from def -> typed_item mem typed to def ->
  later_item nocil later from to -> (nx = true -> next_item next from to) ->
  collected (ld_members def) (mt_items meta) (fun k => hget k (it_values from)) (fun k => hget k (it_values to)) params lists ->
  forall from', same_item same from' from ->
  exists r, modify_item_from_diff inner_apply inner_make from'
      (fresh_item inner_fresh (IDiff params lists (fold_left (compare_ref from def) (it_refs to) []))) meta = Ok r /\ same_item same r to.
Proof.
  intros TS TyF TyT (LM & LV & LR) NX C from' [SV SR].
  pose proof (ts_items _ _ _ TS) as TF.
  destruct (collect_refs_ok def meta from to TS TyT) as (R1 & R2 & R3).
  unfold modify_item_from_diff, fresh_item; cbn [df_params df_lists df_refs].
  rewrite apply_params_put.
  destruct (put_all (mt_items meta) Err (fun _ (_ : option (lval L)) p => Ok (LParam p)) (tf_inj _ _ _ TF)
    (map_snd fresh_param params) (it_values from')) as (r1 & E1 & P1 & P1').
  { rewrite map_fst_map_snd. eapply increasing_nodup, (c_sp _ _ _ _ _ _ C). }
  { intros id x I. apply in_lookup in I; [|rewrite map_fst_map_snd; eapply increasing_nodup, (c_sp _ _ _ _ _ _ C)].
    rewrite lookup_map_snd in I. destruct (meta_get (mt_items meta) id) as [[key mv]|] eqn:Em; [eauto|].
    destruct (c_none _ _ _ _ _ _ C id Em) as [Hn _]. rewrite Hn in I. discriminate. }
  rewrite E1; cbn [bind]. rewrite apply_lists_put.
  assert (P1k : forall id key mv, meta_get (mt_items meta) id = Some (key, mv) ->
     hget key r1 = match pchange (hget key (it_values from)) (hget key (it_values to)) with
                   | Some p => Some (LParam (fresh_param p)) | None => hget key (it_values from') end).
  { intros id key mv Em. specialize (P1 id key mv Em). rewrite lookup_map_snd, (c_p _ _ _ _ _ _ C id key mv Em) in P1.
    destruct (pchange _ _) as [p|]; cbn in P1; [|exact P1]. destruct P1 as (v & Ev & Hv). apply Ok_inj in Ev. congruence. }
  assert (TyA : forall key a, hget key (it_values from) = Some (LMil (Some a)) -> forall id d u, hget key (ld_members def) = Some (id, DMil d u) -> typed a d).
  { intros key a Ha id d u Hd. destruct TyF as (_ & _ & T & _). destruct (T _ _ Ha) as (id' & d' & u' & Hd' & Ht). congruence. }
  assert (TyB : forall key b, hget key (it_values to) = Some (LMil (Some b)) -> forall id d u, hget key (ld_members def) = Some (id, DMil d u) -> typed b d).
  { intros key a Ha id d u Hd. destruct TyT as (_ & _ & T & _). destruct (T _ _ Ha) as (id' & d' & u' & Hd' & Ht). congruence. }
  assert (Lp : forall id key mv y, meta_get (mt_items meta) id = Some (key, mv) -> lookup id lists = Some y ->
     exists mil v, hget key (it_values to) = Some (LMil mil) /\ lput mv (hget key r1) (option_map inner_fresh y) = Ok v /\ same_value same v (LMil mil)).
  { intros id key mv y Em Ey. pose proof (c_l _ _ _ _ _ _ C id key mv Em) as G; cbv beta in G. rewrite Ey in G.
    pose proof (P1k id key mv Em) as Hr1.
    destruct (hget key (it_values to)) as [[p|t|mil]|] eqn:Ew; cbn [lspec] in G; try discriminate.
    destruct G as (id' & d & u & m & Hd & -> & Hi & Hl). cbn [pchange] in Hr1. rewrite Hr1.
    destruct (lput_ok u (hget key (it_values from)) (hget key (it_values from')) mil d m y Hi (SV key)) as (v & Ev & Sv).
    - apply LV; exact Ew.
    - exact Hl.
    - intros a Ha. eapply TyA; eassumption.
    - intros b ->. eapply TyB; eassumption.
    - intros E a b Ha ->. eapply (NX E); eassumption.
    - exists mil, v. auto. }
  destruct (put_all (mt_items meta) Err lput (tf_inj _ _ _ TF) (map_snd (option_map inner_fresh) lists) r1) as (r2 & E2 & P2 & P2').
  { rewrite map_fst_map_snd. eapply increasing_nodup, (c_sl _ _ _ _ _ _ C). }
  { intros id x I. apply in_lookup in I; [|rewrite map_fst_map_snd; eapply increasing_nodup, (c_sl _ _ _ _ _ _ C)].
    rewrite lookup_map_snd in I. destruct (lookup id lists) as [y|] eqn:Ey; [|discriminate]. cbn in I. apply Some_inj in I; subst x.
    destruct (meta_get (mt_items meta) id) as [[key mv]|] eqn:Em.
    - destruct (Lp id key mv y Em Ey) as (mil & v & _ & Ev & _). eauto 6.
    - destruct (c_none _ _ _ _ _ _ C id Em) as [_ Hn]. congruence. }
  rewrite E2; cbn [bind]. rewrite apply_refs_put.
  assert (Rinj : forall id id' key mv mv', meta_get (mt_refs meta) id = Some (key, mv) -> meta_get (mt_refs meta) id' = Some (key, mv') -> id = id').
  { intros id id' key mv mv' A B. apply (ts_refs _ _ _ TS) in A as (? & ? & ? & _), B as (? & ? & ? & _). congruence. }
  destruct (put_all (mt_refs meta) Err (fun _ (_ : option (qv (list Z))) q => Ok q) Rinj
    (fold_left (compare_ref from def) (it_refs to) []) (it_refs from')) as (r3 & E3 & P3 & P3').
  { eapply increasing_nodup, R1. }
  { intros id x I. apply in_lookup in I; [|eapply increasing_nodup, R1].
    destruct (meta_get (mt_refs meta) id) as [[key mv]|] eqn:Em; [eauto|]. rewrite (R3 id Em) in I. discriminate. }
  rewrite E3; cbn [bind]. eexists; split; [reflexivity|]. split; cbn [it_values it_refs]; intros key.
  - specialize (SV key). destruct (hget key (it_values to)) as [w|] eqn:Ew.
    + pose proof (LV _ _ Ew) as Lv. pose proof TyT as (_ & _ & T & _). specialize (T _ _ Ew). destruct w as [p|t|mil]; cbn [typed_value] in T.
      * destruct T as (id & p0 & vt & Hd & Ft). pose proof (tf_param _ _ _ TF _ _ _ _ Hd) as Em.
        specialize (P2 id key _ Em). rewrite lookup_map_snd in P2.
        pose proof (c_l _ _ _ _ _ _ C id key _ Em) as G; cbv beta in G. rewrite Ew in G. cbn [lspec] in G. rewrite G in P2. cbn in P2.
        pose proof (P1k id key _ Em) as K. rewrite Ew in K. rewrite P2, K. cbn [pchange].
        destruct (hget key (it_values from)) as [[fp|t|[o|]]|] eqn:Ef; cbn in Lv; try contradiction.
        -- destruct (identity_eq p fp) eqn:Ei; cbn [negb]; [|cbn; apply fresh_same].
           eapply same_opt_trans; [apply same_value_trans; exact Strans|exact SV|]. cbn.
           pose proof TyF as (_ & _ & T & _). specialize (T _ _ Ef). cbn in T. destruct T as (id' & p0' & vt' & Hd' & Ft').
           apply same_param_sym. eapply identity_eq_same; [apply Ft|apply Ft'|exact Ei].
        -- cbn. apply fresh_same.
      * destruct T as (id & d & Hd). rewrite P2', P1'.
        -- destruct (hget key (it_values from)) as [[fp|t'|[o|]]|] eqn:Ef; cbn in Lv; try contradiction. subst t'. exact SV.
        -- intros id' mv Em. apply (tf_inv _ _ _ TF) in Em. destruct mv; destruct Em as (? & ? & _); congruence.
        -- intros id' mv Em. apply (tf_inv _ _ _ TF) in Em. destruct mv; destruct Em as (? & ? & _); congruence.
      * destruct T as (id & d & u & Hd & Tm). destruct (tf_list _ _ _ TF _ _ _ _ Hd) as (m & Hi & Em).
        specialize (P2 id key _ Em). rewrite lookup_map_snd in P2.
        destruct (lookup id lists) as [y|] eqn:Ey; cbn [option_map] in P2.
        -- destruct (Lp id key _ y Em Ey) as (mil' & v & Ew' & Ev & Sv). destruct P2 as (v' & Ev' & ->). cbn.
           rewrite Ev in Ev'. apply Ok_inj in Ev'; subst v'. replace mil with mil' by congruence. exact Sv.
        -- pose proof (c_l _ _ _ _ _ _ C id key _ Em) as G; cbv beta in G. rewrite Ey, Ew in G. cbn [lspec] in G.
           destruct G as (id' & d' & u' & m' & Hd' & Hmv & Hi' & Hl). rewrite Hd in Hd'. injection Hd' as <- <- <-.
           pose proof (P1k id key _ Em) as K. rewrite Ew in K. cbn [pchange] in K. rewrite P2, K.
           eapply same_opt_trans; [apply same_value_trans; exact Strans|exact SV|].
           eapply (lkeep _ _ d m'); try eassumption.
           ++ intros a Ha. eapply TyA; eassumption.
           ++ intros b ->. eapply TyB; eassumption.
           ++ intros E a b Ha ->. eapply (NX E); eassumption.
    + assert (Ef : hget key (it_values from) = None).
      { destruct (hget key (it_values from)) eqn:Ef; [|reflexivity]. exfalso. apply (LM key); congruence. }
      rewrite Ef in SV. destruct (hget key (it_values from')) eqn:Ef'; [cbn in SV; contradiction|].
      enough (G : hget key r2 = None) by (rewrite G; exact I).
      assert (Din : (exists id mv, meta_get (mt_items meta) id = Some (key, mv)) \/ (forall id mv, meta_get (mt_items meta) id <> Some (key, mv))).
      { destruct (hget key (ld_members def)) as [[id [p vt|d|d u]]|] eqn:Hd.
        - left. exists id. eexists. eapply (tf_param _ _ _ TF); eassumption.
        - right. intros id' mv Em. apply (tf_inv _ _ _ TF) in Em. destruct mv; destruct Em as (? & ? & _); congruence.
        - left. destruct (tf_list _ _ _ TF _ _ _ _ Hd) as (m & Hi & Em). eauto.
        - right. intros id' mv Em. apply (tf_inv _ _ _ TF) in Em. destruct mv; destruct Em as (? & ? & _); congruence. }
      destruct Din as [(id & mv & Em)|Din].
      * specialize (P2 id key mv Em). rewrite lookup_map_snd in P2.
        pose proof (c_l _ _ _ _ _ _ C id key mv Em) as G; cbv beta in G. rewrite Ew in G. cbn [lspec] in G. rewrite G in P2. cbn in P2.
        rewrite P2, (P1k id key mv Em), Ew. cbn [pchange]. exact Ef'.
      * rewrite P2', P1' by exact Din. exact Ef'.
  - specialize (SR key). destruct (hget key (it_refs to)) as [q|] eqn:Ew.
    + pose proof TyT as (_ & _ & _ & T). destruct (T _ _ Ew) as (id & v & vt & Hd & _).
      assert (Em : meta_get (mt_refs meta) id = Some (key, MParam TString vt)) by (apply (ts_refs _ _ _ TS); eauto).
      specialize (P3 id key _ Em). rewrite (R2 id key _ Em), Ew in P3. cbn [rchange] in P3.
      destruct (hget key (it_refs from)) as [f|] eqn:Ef.
      * destruct (negb (qv_str_eq f q)) eqn:Eq; [destruct P3 as (? & Ev & ->); apply Ok_inj in Ev; congruence|].
        apply qv_str_eq_sym_false in Eq. rewrite P3. congruence.
      * destruct P3 as (? & Ev & ->); apply Ok_inj in Ev; congruence.
    + assert (Ef : hget key (it_refs from) = None).
      { destruct (hget key (it_refs from)) eqn:Ef; [|reflexivity]. exfalso. apply (LR key); congruence. }
      rewrite Ef in SR.
      destruct (hget key (ld_refs def)) as [[id [v vt]]|] eqn:Hd.
      * assert (Em : meta_get (mt_refs meta) id = Some (key, MParam TString vt)) by (apply (ts_refs _ _ _ TS); eauto).
        specialize (P3 id key _ Em). rewrite (R2 id key _ Em), Ew in P3. cbn [rchange] in P3. congruence.
      * rewrite P3'; [exact SR|]. intros id mv Em. apply (ts_refs _ _ _ TS) in Em as (? & ? & ? & _). congruence.
Qed.

Lemma compare_items_ok def meta (from to : item L) :
  tables_for itab def meta -> typed_item mem typed from def -> typed_item mem typed to def ->
  later_item nocil later from to -> (nx = true -> next_item next from to) ->
  exists od, compare_items inner_diff inner_new from to def meta = Ok od /\
    match od with
    | None => same_item same from to
    | Some x => forall from', same_item same from' from ->
        exists r, modify_item_from_diff inner_apply inner_make from' (fresh_item inner_fresh x) meta = Ok r /\ same_item same r to
    end.
Proof.
  intros TS TyF TyT LI NX.
  destruct (collect_ok def meta from to (ts_items _ _ _ TS)) as (params & lists & E & C); try assumption.
  { apply (ts_num _ _ _ TS). }
  { apply LI. }
  pose proof (modify_ok def meta from to params lists TS TyF TyT LI NX C) as G.
  unfold compare_items. rewrite E; cbn [bind]. cbv zeta.
  destruct params as [|p params]; [destruct (fold_left _ _ _) as [|q refs] eqn:Er; [destruct lists as [|x lists]|]|];
    (eexists; split; [reflexivity|]); try exact G.
  destruct (G from) as (r & Em & Sr); [apply same_item_refl; exact Srefl|].
  cbn in Em. apply Ok_inj in Em. destruct from; cbn in Em. subst r. exact Sr.
Qed.

Lemma new_item_ok def meta (to : item L) : tables_for itab def meta -> typed_item mem typed to def -> no_cil_item nocil to ->
  exists x, new_item inner_new to def meta = Ok x /\
    exists r, new_item_from_diff inner_apply inner_make (fresh_item inner_fresh x) meta = Ok r /\ same_item same r to.
Proof.
  intros TS TyT NC.
  assert (TyE : typed_item mem typed (@Item L [] []) def).
  { repeat split; try constructor; cbn; discriminate. }
  assert (LI : later_item nocil later (Item [] []) to).
  { repeat split; cbn; try congruence. intros key w Ew. specialize (NC _ _ Ew). destruct w as [p|t|[l|]]; cbn; try exact I; assumption. }
  assert (NX : nx = true -> next_item next (Item [] []) to) by (intros _ key x y; cbn; discriminate).
  destruct (collect_ok def meta (Item [] []) to (ts_items _ _ _ TS)) as (params & lists & E & C); try assumption.
  { apply (ts_num _ _ _ TS). }
  destruct (modify_ok def meta (Item [] []) to params lists TS TyE TyT LI NX C (Item [] [])) as (r & Er & Sr); [apply same_item_refl; exact Srefl|].
  exists (IDiff params lists (fold_left (compare_ref (@Item L [] []) def) (it_refs to) [])). split; [|exists r; split; assumption].
  unfold new_item.
  rewrite (mfold_ext _ (compare_value inner_diff inner_new (Item [] []) def meta)).
  - rewrite E; cbn [bind]. f_equal. f_equal.
    generalize (@nil (Z * qv (list Z))) as acc. generalize (it_refs to) as l.
    induction l as [|[k q] l IH]; intros acc; [reflexivity|]. cbn [fold_left]. rewrite IH. f_equal.
  - intros [ps ls] [key w] I. destruct TyT as (ND & _ & T & _). specialize (T key w (in_hget _ _ _ ND I)).
    destruct w as [p|t|mil]; cbn [typed_value] in T.
    + destruct T as (id & p0 & vt & Hd & _). cbn. rewrite Hd. reflexivity.
    + reflexivity.
    + destruct T as (id & d & u & Hd & _). cbn. rewrite Hd.
      destruct (tf_list _ _ _ (ts_items _ _ _ TS) _ _ _ _ Hd) as (m & _ & Em). rewrite (get_tables_list _ _ _ _ _ Em).
      destruct mil; reflexivity.
Qed.

End Items.
