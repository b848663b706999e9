(** Root differences through the diff format; computed differences are of their
    definition. *)
From Verif Require Import Base CompactionModel CompactionSpec FloatModel FloatProofs StringCompactionModel
  LinkedModel LinkedSpec LinkedProofs DocModel DiffModel DiffWireModel DiffSpec DiffProofs DiffProofs2 DiffProofs3 DiffProofs4
  DiffWireProofs DiffWireProofs2.

Lemma root_roundtrip mem {n} (def : rootdef n) T (d : rootdiff (ldiffT n)) :
  wf_rootdef def -> root_table def = Ok T -> typed_rootdiff mem d def -> readable_root d ->
  exists ks, write_root d T = Ok ks /\ Forall wf_kval ks /\ forall rest, read_root T (plains ks ++ rest) = Ok (fresh_root d, rest).
Proof.
  intros WF ET (Sp & Sl & Hp & Hl) Rd. destruct (root_table_ok def WF) as (T' & ET' & TF). rewrite ET in ET'. apply Ok_inj in ET'; subst T'.
  pose proof WF as ((ND & _ & NN) & Few & _).
  assert (HT : forall id x, meta_get T id = Some x -> 0 <= id < 2 ^ 62).
  { intros id [key mv] E.
    assert (exists v, hget key (lift_def def) = Some (id, v)) as [v Hv].
    { apply (tf_inv _ _ _ TF) in E. destruct mv; [destruct E as (p & H & _)|destruct E as (x & H & _)|destruct E as (x & H & _)]; eauto. }
    rewrite hget_lift_def in Hv by exact ND. destruct (hget key def) as [[id' v']|] eqn:E'; [|discriminate].
    assert (id' = id) by (destruct v'; congruence). subst id'. pose proof (Few _ _ E') as H1. rewrite Forall_forall in NN.
    specialize (NN _ (hget_in _ _ _ E')). cbn in *. lia. }
  assert (Fp : Forall (fun e => p_ok mem T (fst e) (snd e)) (rd_params d)).
  { apply Forall_forall. intros [id p] I. destruct (Hp id p I) as (key & p0 & vt & E & (Ft & Fa & Fw)). cbn [fst snd].
    exists key, vt. rewrite Ft. split; [|auto]. apply (tf_param _ _ _ TF). rewrite hget_lift_def, E by exact ND. reflexivity. }
  assert (Fl : Forall (fun e => l_ok T (fun x t => exists dd, tablesT n dd t /\ typed_diffT mem n x dd /\ readableT n x) (fst e) (snd e)) (rd_lists d)).
  { apply Forall_forall. intros [id o] I. destruct (Hl id o I) as (key & ld & u & E & Ho). cbn [fst snd].
    destruct (tf_list _ _ _ TF key id ld u) as (t & Ht & Em); [rewrite hget_lift_def, E by exact ND; reflexivity|]. exists key. rewrite Em.
    destruct u; (split; [reflexivity|]).
    - destruct o as [x|]; [|exact Logic.I]. exists ld. split; [exact Ht|]. split; [exact Ho|]. apply (Rd id x I).
    - destruct o as [x|]; [|discriminate]. exists x. split; [reflexivity|]. exists ld. split; [exact Ht|]. split; [exact Ho|]. apply (Rd id x I). }
  destruct (parts_roundtrip mem T HT (write_listT n) (read_listT n) (freshT n)
    (fun x t => exists dd, tablesT n dd t /\ typed_diffT mem n x dd /\ readableT n x)) with (ps := rd_params d) (ls := rd_lists d)
    as (s & k1 & k2 & Es & Ws & E1 & E2 & W1 & W2 & Hs); try assumption.
  { intros x t (dd & Ht & Hd & Hx). exact (listT_roundtrip mem n x dd t Ht Hd Hx). }
  destruct (stored_roundtrip s Ws) as [Wk Rk]. unfold write_root, read_root. rewrite Es; cbn [bind].
  destruct s as [|b|w|l].
  - eexists; split; [reflexivity|]. split; [exact Wk|]. intros rest. rewrite Rk; cbn [bind]. destruct Hs as [H1 H2]. unfold fresh_root. rewrite H1, H2. reflexivity.
  - rewrite E1; cbn [bind]. rewrite E2; cbn [bind]. eexists; split; [reflexivity|].
    split; [apply Forall_app; split; [exact Wk|apply Forall_app; split; [exact W1|exact W2]]|]. intros rest. rewrite !plains_app, <- !app_assoc, Rk; cbn [bind].
    rewrite (proj1 (Hs _)); cbn [bind]. rewrite (proj2 (Hs _)); cbn [bind]. reflexivity.
  - rewrite E1; cbn [bind]. rewrite E2; cbn [bind]. eexists; split; [reflexivity|].
    split; [apply Forall_app; split; [exact Wk|apply Forall_app; split; [exact W1|exact W2]]|]. intros rest. rewrite !plains_app, <- !app_assoc, Rk; cbn [bind].
    rewrite (proj1 (Hs _)); cbn [bind]. rewrite (proj2 (Hs _)); cbn [bind]. reflexivity.
  - destruct Hs as [_ Hs]. rewrite E1; cbn [bind]. rewrite E2; cbn [bind]. eexists; split; [reflexivity|].
    split; [apply Forall_app; split; [exact Wk|apply Forall_app; split; [exact W1|exact W2]]|]. intros rest. rewrite !plains_app, <- !app_assoc, Rk; cbn [bind].
    rewrite (proj1 (Hs _)); cbn [bind]. rewrite (proj2 (proj2 (Hs _))); cbn [bind]. reflexivity.
Qed.

(** ** Computed differences *)

Lemma mfold_partial {A B} (f : A -> B -> res A) (P : A -> Prop) l : (forall a b a', In b l -> P a -> f a b = Ok a' -> P a') ->
  forall a r, P a -> mfold f l a = Ok r -> P r.
Proof.
  induction l as [|b l IH]; intros H a r Pa; cbn; [intros E; apply Ok_inj in E; subst; exact Pa|].
  destruct (f a b) as [a'| |] eqn:E; cbn; try discriminate. apply IH; [intros; eapply H; eauto; right; assumption|].
  eapply H; [left; reflexivity|exact Pa|exact E].
Qed.

Lemma in_binsert {A} k (v : A) m e : In e (binsert k v m) -> e = (k, v) \/ In e m.
Proof.
  induction m as [|[x a] m IH]; cbn; [intuition congruence|]. destruct (k <? x); [cbn; intuition congruence|].
  destruct (k =? x); cbn; intuition congruence.
Qed.

Lemma sorted_binsert {A} k (v : A) m : sorted_keys m -> sorted_keys (binsert k v m).
Proof.
  unfold sorted_keys. induction m as [|[x a] m IH]; cbn; intros S; [repeat constructor|].
  inversion_clear S as [|? ? S' F]. destruct (Z.ltb_spec k x); [|destruct (Z.eqb_spec k x)]; cbn.
  - constructor; [constructor; assumption|]. constructor; [exact H|]. eapply Forall_impl; [|exact F]. cbn; intros; lia.
  - subst. constructor; assumption.
  - constructor; [auto|]. apply Forall_forall. intros y I. apply in_map_iff in I as ([y' b] & <- & I). apply in_binsert in I as [E|I].
    + injection E as -> ->. cbn; lia.
    + rewrite Forall_forall in F. apply F. apply in_map_iff. exists (y', b). auto.
Qed.

Section Produced.
Context {D M L LD : Type}.
Variable mem : Z -> list Z.
Variable inner_diff : L -> L -> D -> M -> res (option LD).
Variable inner_new : L -> D -> M -> res LD.
Variable typed : L -> D -> Prop.
Variable tdiff : LD -> D -> Prop.
Hypothesis Hn : forall l d m x, typed l d -> inner_new l d m = Ok x -> tdiff x d.
Hypothesis Hd : forall a b d m x, typed a d -> typed b d -> inner_diff a b d m = Ok (Some x) -> tdiff x d.
Variable def : ldef D.
Variable meta : metatables M.

Definition parts_typed (acc : bmap param * bmap (option LD)) : Prop :=
  sorted_keys (fst acc) /\ sorted_keys (snd acc) /\
  (forall id p, In (id, p) (fst acc) ->
     exists key p0 vt, hget key (ld_members def) = Some (id, DParam p0 vt) /\ fits mem p p0 vt) /\
  (forall id o, In (id, o) (snd acc) ->
     exists key ld undefiable, hget key (ld_members def) = Some (id, DMil ld undefiable) /\
       match o with Some x => tdiff x ld | None => undefiable = true end).

Definition refs_typed (refs : bmap (qv (list Z))) : Prop :=
  sorted_keys refs /\
  (forall id q, In (id, q) refs ->
     exists key v vt, hget key (ld_refs def) = Some (id, (v, vt)) /\ acceptable vt (qv_type_of q) = true /\ wf_ref q).

Lemma put_param key id p p0 vt params lists : hget key (ld_members def) = Some (id, DParam p0 vt) -> fits mem p p0 vt ->
  parts_typed (params, lists) -> parts_typed (binsert id p params, lists).
Proof.
  intros E F (H1 & H2 & H3 & H4). split; [apply sorted_binsert; exact H1|]. split; [exact H2|]. split; [|exact H4].
  intros i q I. apply in_binsert in I as [Q|I]; [injection Q as -> ->; eauto|apply H3; exact I].
Qed.
Lemma put_list key id o ld u params lists : hget key (ld_members def) = Some (id, DMil ld u) ->
  match o with Some x => tdiff x ld | None => u = true end ->
  parts_typed (params, lists) -> parts_typed (params, binsert id o lists).
Proof.
  intros E F (H1 & H2 & H3 & H4). split; [exact H1|]. split; [apply sorted_binsert; exact H2|]. split; [exact H3|].
  intros i q I. apply in_binsert in I as [Q|I]; [injection Q as -> ->; eauto 6|apply H4; exact I].
Qed.
Lemma put_ref key id q v vt refs : hget key (ld_refs def) = Some (id, (v, vt)) -> acceptable vt (qv_type_of q) = true -> wf_ref q ->
  refs_typed refs -> refs_typed (binsert id q refs).
Proof.
  intros E A W (H1 & H2). split; [apply sorted_binsert; exact H1|].
  intros i p I. apply in_binsert in I as [Q|I]; [injection Q as -> ->; eauto 6|apply H2; exact I].
Qed.
Lemma parts_typed_nil : parts_typed ([], []).
Proof. split; [constructor|]. split; [constructor|]. split; intros ? ? []. Qed.
Lemma refs_typed_nil : refs_typed [].
Proof. split; [constructor|]. intros ? ? []. Qed.

Lemma new_value_typed it acc e acc' : typed_item mem typed it def -> In e (it_values it) -> parts_typed acc ->
  new_value inner_new def meta acc e = Ok acc' -> parts_typed acc'.
Proof.
  intros (ND & _ & Ty & _) I P. destruct acc as [params lists], e as [key v]. apply (in_hget _ _ _ ND) in I. specialize (Ty key v I).
  cbn [new_value]. destruct v as [p|t|o]; cbn [typed_value] in Ty.
  - destruct Ty as (id & p0 & vt & Ek & F). rewrite Ek. intros E. apply Ok_inj in E; subst acc'. eapply put_param; eauto 3.
  - intros E. apply Ok_inj in E; subst acc'. exact P.
  - destruct Ty as (id & d & u & Ek & To). rewrite Ek. destruct o as [l|].
    + destruct (get_tables _ id) as [m|]; [|discriminate]. destruct (inner_new l d m) as [x| |] eqn:Ex; try discriminate. cbn [bind].
      intros E. apply Ok_inj in E; subst acc'. eapply put_list; eauto 3.
    + intros E. apply Ok_inj in E; subst acc'. eapply put_list; eauto 3.
Qed.

Lemma compare_value_typed from it acc e acc' : typed_item mem typed from def -> typed_item mem typed it def -> In e (it_values it) -> parts_typed acc ->
  compare_value inner_diff inner_new from def meta acc e = Ok acc' -> parts_typed acc'.
Proof.
  intros (_ & _ & TyF & _) (ND & _ & Ty & _) I P. destruct acc as [params lists], e as [key v]. apply (in_hget _ _ _ ND) in I. specialize (Ty key v I).
  cbn [compare_value]. destruct v as [p|t|o]; cbn [typed_value] in Ty.
  - destruct Ty as (id & p0 & vt & Ek & F). rewrite Ek. destruct (hget key (it_values from)) as [[fp|t|fo]|]; try destruct (negb _);
      intros E; apply Ok_inj in E; subst acc'; try exact P; eapply put_param; eauto 3.
  - intros E. apply Ok_inj in E; subst acc'. exact P.
  - destruct Ty as (id & d & u & Ek & To). rewrite Ek. destruct (get_tables _ id) as [m|]; [|discriminate].
    assert (New : forall l x, o = Some l -> inner_new l d m = Ok x -> parts_typed (params, binsert id (Some x) lists)).
    { intros l x -> Ex. eapply put_list; eauto 3. }
    assert (Non : o = None -> parts_typed (params, binsert id None lists)) by (intros ->; eapply put_list; eauto 3).
    destruct (hget key (it_values from)) as [[fp|t|[a|]]|] eqn:Ef; (destruct o as [l|]; [|intros E; apply Ok_inj in E; subst acc'; auto]).
    + destruct (inner_new l d m) as [x| |] eqn:Ex; try discriminate. cbn [bind]. intros E. apply Ok_inj in E; subst acc'. eauto.
    + destruct (inner_new l d m) as [x| |] eqn:Ex; try discriminate. cbn [bind]. intros E. apply Ok_inj in E; subst acc'. eauto.
    + destruct (inner_diff a l d m) as [[x|]| |] eqn:Ex; try discriminate; cbn [bind]; intros E; apply Ok_inj in E; subst acc'; [|exact P].
      specialize (TyF key _ Ef). cbn in TyF. destruct TyF as (id' & d' & u' & Ek' & Ta). rewrite Ek in Ek'. injection Ek' as <- <- <-.
      eapply put_list; eauto 3.
    + destruct (inner_new l d m) as [x| |] eqn:Ex; try discriminate. cbn [bind]. intros E. apply Ok_inj in E; subst acc'. eauto.
    + destruct (inner_new l d m) as [x| |] eqn:Ex; try discriminate. cbn [bind]. intros E. apply Ok_inj in E; subst acc'. eauto.
Qed.

Lemma fold_partial {A B} (f : A -> B -> A) (P : A -> Prop) l : (forall a b, In b l -> P a -> P (f a b)) -> forall a, P a -> P (fold_left f l a).
Proof.
  induction l as [|b l IH]; intros H a Pa; cbn; [exact Pa|]. apply IH; [intros; apply H; [right|]; assumption|]. apply H; [left; reflexivity|exact Pa].
Qed.

Lemma new_refs_typed it : typed_item mem typed it def -> refs_typed (fold_left (new_ref def) (it_refs it) []).
Proof.
  intros (_ & ND & _ & Ty). apply fold_partial; [|apply refs_typed_nil]. intros refs [key q] I P. apply (in_hget _ _ _ ND) in I.
  destruct (Ty key q I) as (id & v & vt & E & A & W). unfold new_ref. cbn [fst snd]. rewrite E. eapply put_ref; eauto.
Qed.
Lemma compare_refs_typed (from it : item L) : typed_item mem typed it def -> refs_typed (fold_left (compare_ref from def) (it_refs it) []).
Proof.
  intros (_ & ND & _ & Ty). apply fold_partial; [|apply refs_typed_nil]. intros refs [key q] I P. apply (in_hget _ _ _ ND) in I.
  destruct (Ty key q I) as (id & v & vt & E & A & W). unfold compare_ref. rewrite E. destruct (hget key (it_refs from)); [destruct (negb _); [|exact P]|]; eapply put_ref; eauto.
Qed.

Lemma parts_item params lists refs : parts_typed (params, lists) -> refs_typed refs -> typed_itemdiff mem tdiff (IDiff params lists refs) def.
Proof. intros (H1 & H2 & H3 & H4) (H5 & H6). unfold typed_itemdiff. cbn. auto 7. Qed.

Lemma new_item_typed it x : typed_item mem typed it def -> new_item inner_new it def meta = Ok x -> typed_itemdiff mem tdiff x def.
Proof.
  intros Ty. unfold new_item. destruct (mfold _ _ _) as [[params lists]| |] eqn:E; try discriminate. cbn [bind]. intros H. apply Ok_inj in H; subst x.
  apply parts_item; [|apply new_refs_typed; exact Ty]. revert E. apply mfold_partial; [|apply parts_typed_nil].
  intros acc e acc' I P. apply (new_value_typed it); assumption.
Qed.

Lemma compare_items_typed from it x : typed_item mem typed from def -> typed_item mem typed it def ->
  compare_items inner_diff inner_new from it def meta = Ok (Some x) -> typed_itemdiff mem tdiff x def.
Proof.
  intros TyF Ty. unfold compare_items. destruct (mfold _ _ _) as [[params lists]| |] eqn:E; try discriminate. cbn [bind].
  intros H. assert (x = IDiff params lists (fold_left (compare_ref from def) (it_refs it) [])).
  { destruct params; [destruct (fold_left _ _ _); [destruct lists|]|]; try discriminate; apply Ok_inj, Some_inj in H; congruence. }
  subst x. apply parts_item; [|apply compare_refs_typed; exact Ty]. revert E. apply mfold_partial; [|apply parts_typed_nil].
  intros acc e acc' I P. apply (compare_value_typed from it); assumption.
Qed.

Definition entry_typed (e : Z * enumdiff LD) : Prop :=
  u64_range (fst e) /\
    match snd e with
    | Delete => True
    | Create prev x => match prev with Some k => u64_range k | None => True end /\ typed_itemdiff mem tdiff x def
    | Modify x => typed_itemdiff mem tdiff x def
    end.

Lemma new_list_typed l x : typed_list mem typed l def -> new_list inner_new l def meta = Ok x -> typed_listdiff mem tdiff x def.
Proof.
  intros (ND & U & Nx & Len & F1 & F2 & Ty). unfold new_list.
  destruct (mfold _ _ _) as [[result prev]| |] eqn:E; try discriminate. cbn [bind]. intros H. apply Ok_inj in H; subst x.
  enough (G : (zlen result <= zlen (fst l) /\ match prev with Some k => u64_range k | None => True end /\ Forall entry_typed result)).
  { destruct G as (G1 & _ & G2). split; [exact F1|]. split; [exact F2|]. cbn [fst snd]. split; [lia|]. split; [exact Nx|exact G2]. }
  assert (Tyl : forall id it, In (id, it) (fst l) -> typed_item mem typed it def /\ u64_range id).
  { intros id it I. split; [eapply Ty; apply in_lookup; [exact ND|exact I]|]. rewrite Forall_forall in U. apply U. unfold ids. apply in_map_iff. exists (id, it). auto. }
  clear ND U Nx Len Ty. revert E.
  assert (G : forall es acc, (forall id it, In (id, it) es -> typed_item mem typed it def /\ u64_range id) ->
    match snd acc with Some k => u64_range k | None => True end -> Forall entry_typed (fst acc) ->
    mfold (fun acc e => let '(result, prev_id) := acc in let '(id, it) := e in x <- new_item inner_new it def meta ; Ok (result ++ [(id, Create prev_id x)], Some id)) es acc = Ok (result, prev) ->
    zlen result <= zlen (fst acc) + zlen es /\ match prev with Some k => u64_range k | None => True end /\ Forall entry_typed result).
  { induction es as [|[id it] es IH]; intros [res pr] Te Hp Hf; cbn [mfold fst snd] in *.
    - intros E. apply Ok_inj in E. injection E as <- <-. split; [unfold zlen; cbn; lia|auto].
    - destruct (new_item inner_new it def meta) as [x| |] eqn:Ex; try discriminate. cbn [bind]. intros E.
      destruct (Te id it (or_introl eq_refl)) as [T0 U0].
      specialize (IH (res ++ [(id, Create pr x)], Some id)). cbn [fst snd] in IH. destruct IH as (I1 & I2 & I3); [intros; apply Te; right; assumption|exact U0| |exact E|].
      + apply Forall_app; split; [exact Hf|]. constructor; [|constructor]. split; [exact U0|]. cbn [snd]. split; [exact Hp|]. eapply new_item_typed; eauto.
      + split; [|auto]. unfold zlen in *. rewrite app_length in I1. cbn [length] in *. lia. }
  intros E. destruct (G (fst l) ([], None) Tyl I (Forall_nil _) E) as (G1 & G2 & G3). split; [|auto]. unfold zlen in *. cbn in G1. lia.
Qed.

Lemma get_mlist_diff_typed a b x : typed_list mem typed a def -> typed_list mem typed b def ->
  get_mlist_diff inner_diff inner_new a b def meta = Ok (Some x) -> typed_listdiff mem tdiff x def.
Proof.
  intros (NDa & Ua & _ & Lena & F1 & F2 & Tya) (NDb & Ub & Nx & Lenb & _ & _ & Tyb). unfold get_mlist_diff.
  destruct (mfold (diff_from _ _ _ _ _) _ _) as [r1| |] eqn:E1; try discriminate. cbn [bind].
  destruct (mfold (diff_to _ _ _ _) _ _) as [[r2 prev]| |] eqn:E2; try discriminate. cbn [bind]. intros H.
  assert (x = (r2, snd b)) by (destruct r2; [discriminate|]; apply Ok_inj, Some_inj in H; congruence). subst x. clear H.
  assert (Ha : forall id it, In (id, it) (fst a) -> typed_item mem typed it def /\ u64_range id).
  { intros id it I. split; [eapply Tya; apply in_lookup; [exact NDa|exact I]|]. rewrite Forall_forall in Ua. apply Ua. unfold ids. apply in_map_iff. exists (id, it). auto. }
  assert (Hb : forall id it, In (id, it) (fst b) -> typed_item mem typed it def /\ u64_range id).
  { intros id it I. split; [eapply Tyb; apply in_lookup; [exact NDb|exact I]|]. rewrite Forall_forall in Ub. apply Ub. unfold ids. apply in_map_iff. exists (id, it). auto. }
  assert (G1 : zlen r1 <= zlen (@nil (Z * enumdiff LD)) + zlen (fst a) /\ Forall entry_typed r1).
  { assert (G : forall es acc, (forall id it, In (id, it) es -> typed_item mem typed it def /\ u64_range id) -> Forall entry_typed acc ->
      mfold (diff_from inner_diff inner_new b def meta) es acc = Ok r1 -> zlen r1 <= zlen acc + zlen es /\ Forall entry_typed r1).
    { induction es as [|[id it] es IH]; intros acc Te Hf E; cbn [mfold] in E.
      - apply Ok_inj in E; subst. split; [unfold zlen; cbn; lia|exact Hf].
      - destruct (diff_from _ _ _ _ _ acc _) as [acc'| |] eqn:Ed; try discriminate. cbn [bind] in E.
        destruct (Te id it (or_introl eq_refl)) as [T0 U0].
        assert (zlen acc' <= zlen acc + 1 /\ Forall entry_typed acc') as [A1 A2].
        { cbn [diff_from] in Ed. destruct (lookup id (fst b)) as [to_it|] eqn:El.
          - destruct (compare_items _ _ _ _ _ _) as [[x|]| |] eqn:Ec; try discriminate; cbn [bind] in Ed; apply Ok_inj in Ed; subst acc'.
            + split; [unfold zlen; rewrite app_length; cbn; lia|]. apply Forall_app; split; [exact Hf|]. constructor; [|constructor]. split; [exact U0|].
              cbn [snd]. eapply compare_items_typed; [exact T0| |exact Ec]. eapply Tyb; exact El.
            + split; [lia|exact Hf].
          - apply Ok_inj in Ed; subst acc'. split; [unfold zlen; rewrite app_length; cbn; lia|]. apply Forall_app; split; [exact Hf|]. constructor; [|constructor]. split; [exact U0|exact I]. }
        destruct (IH acc' (fun i t I => Te i t (or_intror I)) A2 E) as [I1 I2]. split; [|exact I2]. unfold zlen in *. cbn [length]. lia. }
    exact (G (fst a) [] Ha (Forall_nil _) E1). }
  destruct G1 as [L1 T1].
  assert (G2 : zlen r2 <= zlen r1 + zlen (fst b) /\ Forall entry_typed r2).
  { assert (G : forall es acc, (forall id it, In (id, it) es -> typed_item mem typed it def /\ u64_range id) -> 
      match snd acc with Some k => u64_range k | None => True end -> Forall entry_typed (fst acc) ->
      mfold (diff_to inner_new a def meta) es acc = Ok (r2, prev) -> zlen r2 <= zlen (fst acc) + zlen es /\ Forall entry_typed r2).
    { induction es as [|[id it] es IH]; intros [res pr] Te Hp Hf E; cbn [mfold fst snd] in *.
      - apply Ok_inj in E. injection E as <- <-. split; [unfold zlen; cbn; lia|exact Hf].
      - destruct (Te id it (or_introl eq_refl)) as [T0 U0].
        destruct (diff_to _ _ _ _ _ _) as [acc'| |] eqn:Ed; try discriminate. cbn [bind] in E.
        assert (zlen (fst acc') <= zlen res + 1 /\ match snd acc' with Some k => u64_range k | None => True end /\ Forall entry_typed (fst acc')) as (A1 & A2 & A3).
        { cbn [diff_to] in Ed. destruct (negb _).
          - destruct (new_item _ _ _ _) as [x| |] eqn:Ex; try discriminate. cbn [bind] in Ed. apply Ok_inj in Ed; subst acc'. cbn [fst snd].
            split; [unfold zlen; rewrite app_length; cbn; lia|]. split; [exact U0|]. apply Forall_app; split; [exact Hf|]. constructor; [|constructor]. split; [exact U0|].
            cbn [snd]. split; [exact Hp|]. eapply new_item_typed; [exact T0|exact Ex].
          - apply Ok_inj in Ed; subst acc'. cbn [fst snd]. split; [lia|]. auto. }
        destruct (IH acc' (fun i t I => Te i t (or_intror I)) A2 A3 E) as [I1 I2]. split; [|exact I2]. unfold zlen in *. cbn [length]. lia. }
    exact (G (fst b) (r1, None) Hb I T1 E2). }
  destruct G2 as [L2 T2]. split; [exact F1|]. split; [exact F2|]. cbn [fst snd]. split; [unfold zlen in *; cbn in L1; lia|]. split; [exact Nx|exact T2].
Qed.
End Produced.

Lemma produced_typed mem n : (forall l d m x, typedT mem n l d -> new_listT n l d m = Ok x -> typed_diffT mem n x d) /\
  (forall a b d m x, typedT mem n a d -> typedT mem n b d -> get_mlist_diffT n a b d m = Ok (Some x) -> typed_diffT mem n x d).
Proof.
  induction n as [|n [IHn IHd]]; [split; intros; contradiction|]. cbn [typedT new_listT get_mlist_diffT typed_diffT]. split.
  - intros l d m x. apply new_list_typed. exact IHn.
  - intros a b d m x. apply get_mlist_diff_typed; assumption.
Qed.

Lemma root_produced_typed mem {n} (f t : sabun n) def T d : wf_rootdef def -> root_table def = Ok T ->
  typed_root mem f def -> typed_root mem t def -> get_root_diff f t def T = Ok d -> typed_rootdiff mem d def.
Proof.
  intros WF ET (NDf & TyF) (NDt & TyT). destruct (root_table_ok def WF) as (T' & ET' & TF). rewrite ET in ET'. apply Ok_inj in ET'; subst T'.
  pose proof WF as ((ND & _) & _). destruct (produced_typed mem n) as [Hnew Hdiff].
  unfold get_root_diff. destruct (mfold _ _ _) as [[params lists]| |] eqn:E; try discriminate. cbn [bind]. intros H. apply Ok_inj in H; subst d.
  set (P := fun acc : bmap param * bmap (option (ldiffT n)) => typed_rootdiff mem (RDiff (fst acc) (snd acc)) def).
  change (P (params, lists)). revert E. apply mfold_partial; [|].
  2:{ split; [constructor|]. split; [constructor|]. split; intros ? ? []. }
  intros [ps ls] [key v] acc' I (H1 & H2 & H3 & H4). cbn [fst snd rd_params rd_lists] in *. apply (in_hget _ _ _ NDt) in I. pose proof (TyT key v I) as Tv.
  assert (PutP : forall id p p0 vt, hget key def = Some (id, RVParam p0 vt) -> fits mem p p0 vt -> P (binsert id p ps, ls)).
  { intros id p p0 vt Ek F. split; [apply sorted_binsert; exact H1|]. split; [exact H2|]. split; [|exact H4].
    intros i q J. apply in_binsert in J as [Q|J]; [injection Q as -> ->; eauto|apply H3; exact J]. }
  assert (PutL : forall id o ld u, hget key def = Some (id, RVMList ld u) -> match o with Some x => typed_diffT mem n x ld | None => u = true end -> P (ps, binsert id o ls)).
  { intros id o ld u Ek F. split; [exact H1|]. split; [apply sorted_binsert; exact H2|]. split; [exact H3|].
    intros i q J. apply in_binsert in J as [Q|J]; [injection Q as -> ->; eauto 6|apply H4; exact J]. }
  assert (Same : P (ps, ls)) by (unfold P, typed_rootdiff; cbn; auto).
  cbn [root_value]. destruct v as [p|o].
  - destruct Tv as (id & p0 & vt & Ek & F). rewrite Ek. destruct (hget key f) as [[fp|fo]|]; try destruct (negb _);
      intros E; apply Ok_inj in E; subst acc'; try exact Same; eapply PutP; eauto.
  - destruct Tv as (id & ld & u & Ek & To). destruct (hget key f) as [[fp|fo]|] eqn:Ef; try discriminate.
    rewrite Ek. destruct (tf_list _ _ _ TF key id ld u) as (m & Ht & Em); [rewrite hget_lift_def, Ek by exact ND; reflexivity|]. rewrite Em.
    specialize (TyF key _ Ef). cbn in TyF. destruct TyF as (id' & ld' & u' & Ek' & Tf). rewrite Ek in Ek'. injection Ek' as <- <- <-.
    destruct u; [destruct fo, o; try discriminate; intros E; apply Ok_inj in E; subst acc'; exact Same|].
    destruct fo as [a|], o as [b|]; try discriminate.
    destruct (get_mlist_diffT n a b ld m) as [[x|]| |] eqn:Ex; try discriminate; cbn [bind]; intros E; apply Ok_inj in E; subst acc'; [|exact Same].
    eapply PutL; [exact Ek|]. exact (Hdiff a b ld m x Tf To Ex).
Qed.

(** ** Small definitions *)

Lemma small_not_numbers params lists l : ascending 0 params -> ascending 0 lists ->
  (forall x, In x params -> x < 11) -> (forall x, In x lists -> x < 11) -> store_ids params lists <> Ok (SNumbers l).
Proof.
  intros Ap Al Hp Hl. pose proof (max_and_len_ok params Ap) as Mp. pose proof (max_and_len_ok lists Al) as Ml. unfold store_ids.
  destruct (max_and_len params) as [m1 l1], (max_and_len lists) as [m2 l2].
  destruct Mp as (-> & _ & Np & Ip), Ml as (-> & _ & Nl & Il).
  assert (m1 < 11) by (destruct Ip as [->|I]; [lia|apply Hp; exact I]). assert (m2 < 11) by (destruct Il as [->|I]; [lia|apply Hl; exact I]).
  set (mx := Z.max (Z.max 0 m1) m2). assert (0 <= mx < 11) by lia. unfold calc_type.
  destruct (Z.eqb_spec (zlen params + zlen lists) 0); [discriminate|].
  destruct (Z.ltb_spec mx 64); [|lia]. rewrite (Z.div_small mx 11) by lia.
  destruct (Z.gtb_spec (zlen params + zlen lists) 0); [|unfold zlen in *; lia].
  destruct (update_u64 params 0) as [r| |]; try discriminate. cbn [bind]. destruct (update_u64 lists r); discriminate.
Qed.

Lemma small_readable_item mem {D LD} (inner : LD -> D -> Prop) (readable : LD -> Prop) (small wfi : D -> Prop) (def : ldef D) d :
  (forall x d, inner x d -> small d -> wfi d -> readable x) -> small_def small def -> wf_def wfi def ->
  typed_itemdiff mem inner d def -> readable_item readable d.
Proof.
  intros Hi (S1 & S2) ((ND & _ & NN) & _ & W) (Sp & Sl & _ & Hp & Hl & _). rewrite Forall_forall in NN, W. split.
  - destruct (df_lists d) as [|[id0 o0] ls] eqn:E; [left; reflexivity|right]. intros l.
    destruct (Hl id0 o0 (or_introl eq_refl)) as (k0 & d0 & u0 & H0 & _).
    assert (zlen (ld_members def) <= 11) as Small by (apply S1; eauto).
    assert (Gp : forall x, In x (map fst (df_params d)) -> 0 <= x < 11).
    { intros x I. apply in_map_iff in I as ([x' p] & <- & I). destruct (Hp x' p I) as (k & p0 & vt & H & _). specialize (NN _ (hget_in _ _ _ H)). cbn in *. lia. }
    assert (Gl : forall x, In x (map fst ((id0, o0) :: ls)) -> 0 <= x < 11).
    { intros x I. apply in_map_iff in I as ([x' p] & <- & I). destruct (Hl x' p I) as (k & p0 & vt & H & _). specialize (NN _ (hget_in _ _ _ H)). cbn in *. lia. }
    apply small_not_numbers.
    + apply sorted_ascending; [exact Sp|]. intros x I; apply Gp in I; lia.
    + apply sorted_ascending; [exact Sl|]. intros x I; apply Gl in I; lia.
    + intros x I; apply Gp in I; lia.
    + intros x I; apply Gl in I; lia.
  - intros id x I. destruct (Hl id (Some x) I) as (k & dd & u & H & T). eapply Hi; [exact T|eapply S2; exact H|]. specialize (W _ (hget_in _ _ _ H)). exact W.
Qed.

Lemma small_readableT mem n : forall d def, typed_diffT mem n d def -> small_defT n def -> wf_defT n def -> readableT n d.
Proof.
  induction n as [|n IH]; intros d def T S W; [exact I|]. cbn [typed_diffT small_defT wf_defT readableT] in *.
  destruct T as (_ & _ & _ & _ & F). unfold readable_list. eapply Forall_impl; [|exact F]. intros [id e] [_ He]. cbn [snd] in *.
  destruct e as [|prev x|x]; [exact I|destruct He as [_ He]|]; eapply small_readable_item; eauto.
Qed.

Lemma small_readable_root mem {n} (def : rootdef n) d : wf_rootdef def -> small_rootdef def -> typed_rootdiff mem d def -> readable_root d.
Proof.
  intros (_ & _ & W) S (_ & _ & _ & Hl) id x I. destruct (Hl id _ I) as (k & ld & u & E & T). rewrite Forall_forall in W.
  eapply small_readableT; [exact T|eapply S; exact E|]. specialize (W _ (hget_in _ _ _ E)). exact W.
Qed.
