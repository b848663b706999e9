(** Maps, folds and meta tables. *)
From Verif Require Import Base CompactionModel CompactionSpec FloatModel FloatProofs StringCompactionModel StringCompactionProofs
  LinkedModel LinkedSpec LinkedProofs LinkedProofs2 DocModel DiffModel DiffWireModel DiffSpec.

(* ------------------------------------------------------------------ *)
(** * Hash maps *)

Lemma eqb_bytes_refl a : eqb_bytes a a = true.
Proof. apply eqb_bytes_eq; reflexivity. Qed.

Lemma eqb_bytes_neq a b : a <> b -> eqb_bytes a b = false.
Proof. intros H. destruct (eqb_bytes a b) eqn:E; [|reflexivity]. apply eqb_bytes_eq in E; contradiction. Qed.

Lemma name_dec (a b : name) : a = b \/ a <> b.
Proof. destruct (eqb_bytes a b) eqn:E; [left; apply eqb_bytes_eq; exact E|right]. intros ->. rewrite eqb_bytes_refl in E; discriminate. Qed.

Lemma hget_hset_same {A} k (v : A) m : hget k (hset k v m) = Some v.
Proof.
  induction m as [|[x a] r IH]; cbn; [rewrite eqb_bytes_refl; reflexivity|].
  destruct (eqb_bytes x k) eqn:E; cbn; rewrite E; [reflexivity|exact IH].
Qed.

Lemma hget_hset_other {A} k k' (v : A) m : k' <> k -> hget k' (hset k v m) = hget k' m.
Proof.
  intros H. induction m as [|[x a] r IH]; cbn.
  - rewrite eqb_bytes_neq by congruence; reflexivity.
  - destruct (eqb_bytes x k) eqn:E; cbn.
    + apply eqb_bytes_eq in E; subst x. rewrite eqb_bytes_neq by congruence. reflexivity.
    + destruct (eqb_bytes x k'); [reflexivity|exact IH].
Qed.

Lemma hset_same {A} k (v : A) m : hget k m = Some v -> hset k v m = m.
Proof.
  induction m as [|[x a] r IH]; cbn; [discriminate|].
  destruct (eqb_bytes x k); intros H; [congruence|]. rewrite IH by exact H; reflexivity.
Qed.

Lemma hget_in {A} k (v : A) m : hget k m = Some v -> In (k, v) m.
Proof.
  induction m as [|[x a] r IH]; cbn; [discriminate|].
  destruct (eqb_bytes x k) eqn:E; intros H; [apply eqb_bytes_eq in E; left; congruence|right; auto].
Qed.

Lemma in_hget {A} k (v : A) m : NoDup (map fst m) -> In (k, v) m -> hget k m = Some v.
Proof.
  induction m as [|[x a] r IH]; cbn; intros ND; [contradiction|]. apply NoDup_cons_iff in ND as [NI ND].
  intros [E|I].
  - injection E as -> ->. rewrite eqb_bytes_refl; reflexivity.
  - rewrite eqb_bytes_neq; [auto|]. intros ->. apply NI. apply in_map_iff. exists (k, v). auto.
Qed.

Lemma hget_none {A} k (m : hmap A) : hget k m = None <-> ~ In k (map fst m).
Proof.
  induction m as [|[x a] r IH]; cbn; [tauto|].
  destruct (eqb_bytes x k) eqn:E.
  - apply eqb_bytes_eq in E. split; [discriminate|intros H; exfalso; apply H; auto].
  - rewrite IH. split; intros H; [|tauto]. intros [->|I]; [rewrite eqb_bytes_refl in E; discriminate|tauto].
Qed.

Lemma hget_app {A} k (a b : hmap A) : hget k (a ++ b) = match hget k a with Some v => Some v | None => hget k b end.
Proof. induction a as [|[x v] r IH]; cbn; [reflexivity|]. destruct (eqb_bytes x k); [reflexivity|exact IH]. Qed.

Lemma hget_map {A B} (f : A -> B) k (m : hmap A) : hget k (map (fun e => (fst e, f (snd e))) m) = option_map f (hget k m).
Proof. induction m as [|[x v] r IH]; cbn; [reflexivity|]. destruct (eqb_bytes x k); [reflexivity|exact IH]. Qed.

(* ------------------------------------------------------------------ *)
(** * Folds *)

Lemma mfold_app {A B} (f : A -> B -> res A) l l' a : mfold f (l ++ l') a = (a <- mfold f l a ; mfold f l' a).
Proof. revert a; induction l as [|b r IH]; intros a; cbn; [reflexivity|]. destruct (f a b); cbn; auto. Qed.

Lemma mfold_ext {A B} (f g : A -> B -> res A) l a : (forall a b, In b l -> f a b = g a b) -> mfold f l a = mfold g l a.
Proof.
  revert a; induction l as [|b r IH]; intros a H; cbn; [reflexivity|].
  rewrite H by (left; reflexivity). destruct (g a b); cbn; [|reflexivity|reflexivity].
  apply IH. intros; apply H; right; assumption.
Qed.

(** an invariant over the prefixes *)
Lemma mfold_inv {A B} (f : A -> B -> res A) (P : list B -> A -> Prop) l a :
  P [] a ->
  (forall p b r a, l = p ++ b :: r -> P p a -> exists a', f a b = Ok a' /\ P (p ++ [b]) a') ->
  exists a', mfold f l a = Ok a' /\ P l a'.
Proof.
  intros H0 Hs.
  enough (G : forall r p a, l = p ++ r -> P p a -> exists a', mfold f r a = Ok a' /\ P l a').
  { apply (G l [] a); auto. }
  induction r as [|b r IH]; intros p a' E HP.
  - rewrite app_nil_r in E; subst p. exists a'; split; [reflexivity|assumption].
  - destruct (Hs p b r a' E HP) as (a2 & Ef & HP2). cbn. rewrite Ef; cbn.
    apply (IH (p ++ [b])); [|exact HP2]. rewrite E, <- app_assoc; reflexivity.
Qed.

(* ------------------------------------------------------------------ *)
(** * BTreeMaps *)

Lemma lookup_binsert {A} id k (v : A) m : lookup id (binsert k v m) = if id =? k then Some v else lookup id m.
Proof.
  induction m as [|[x a] r IH]; cbn; [destruct (id =? k) eqn:E; reflexivity|].
  destruct (Z.ltb_spec k x); cbn.
  - destruct (Z.eqb_spec id k); [reflexivity|reflexivity].
  - destruct (Z.eqb_spec k x); cbn.
    + subst x. destruct (Z.eqb_spec id k); reflexivity.
    + rewrite IH. destruct (Z.eqb_spec id x), (Z.eqb_spec id k); try reflexivity; lia.
Qed.

(** strictly increasing keys, all at least [lo] *)
Fixpoint increasing {A} (lo : Z) (m : bmap A) : Prop :=
  match m with [] => True | (k, _) :: r => lo <= k /\ increasing (k + 1) r end.

Lemma increasing_weaken {A} lo lo' (m : bmap A) : lo' <= lo -> increasing lo m -> increasing lo' m.
Proof. destruct m as [|[k a] r]; cbn; [auto|]. intros ? [? ?]; split; [lia|assumption]. Qed.

Lemma increasing_binsert {A} lo k (v : A) m : lo <= k -> increasing lo m -> increasing lo (binsert k v m).
Proof.
  revert lo; induction m as [|[x a] r IH]; cbn; intros lo Hk H; [split; [lia|exact I]|].
  destruct H as [H1 H2]. destruct (Z.ltb_spec k x); cbn.
  - repeat split; try lia. eapply increasing_weaken; [|exact H2]; lia.
  - destruct (Z.eqb_spec k x); cbn; [subst; auto|]. split; [lia|]. apply IH; [lia|assumption].
Qed.

Lemma increasing_in {A} lo (m : bmap A) k v : increasing lo m -> In (k, v) m -> lo <= k.
Proof.
  revert lo; induction m as [|[x a] r IH]; cbn; intros lo H; [contradiction|].
  destruct H as [H1 H2]. intros [E|I]; [congruence|]. specialize (IH _ H2 I). lia.
Qed.

Lemma increasing_nodup {A} lo (m : bmap A) : increasing lo m -> NoDup (map fst m).
Proof.
  revert lo; induction m as [|[x a] r IH]; cbn; intros lo H; [constructor|]. destruct H as [H1 H2].
  constructor; [|eauto]. intros I. apply in_map_iff in I as ([k v] & E & I). cbn in E; subst k.
  apply (increasing_in _ _ _ _ H2) in I. lia.
Qed.

Lemma in_lookup {A} id (v : A) m : NoDup (map fst m) -> In (id, v) m -> lookup id m = Some v.
Proof.
  induction m as [|[x a] r IH]; cbn; intros ND; [contradiction|]. apply NoDup_cons_iff in ND as [NI ND].
  intros [E|I]; [injection E as -> ->; rewrite Z.eqb_refl; reflexivity|].
  destruct (Z.eqb_spec id x); [|auto]. subst x. exfalso. apply NI. apply in_map_iff. exists (id, v); auto.
Qed.

Lemma lookup_in' {A} id (v : A) m : lookup id m = Some v -> In (id, v) m.
Proof.
  induction m as [|[x a] r IH]; cbn; [discriminate|].
  destruct (Z.eqb_spec id x); intros H; [left; congruence|right; auto].
Qed.

Lemma lookup_map_snd {A B} (f : A -> B) id (m : bmap A) : lookup id (map_snd f m) = option_map f (lookup id m).
Proof. unfold map_snd. induction m as [|[x a] r IH]; cbn; [reflexivity|]. destruct (id =? x); [reflexivity|exact IH]. Qed.

Lemma map_fst_map_snd {A B} (f : A -> B) (m : bmap A) : map fst (map_snd f m) = map fst m.
Proof. unfold map_snd. rewrite map_map. reflexivity. Qed.

Lemma map_snd_nil {A B} (f : A -> B) (m : bmap A) : map_snd f m = [] -> m = [].
Proof. destruct m; [reflexivity|discriminate]. Qed.

(* ------------------------------------------------------------------ *)
(** * Meta tables *)

(** the table belongs to the numbered members *)
Record table_for {D M} (inner : D -> M -> Prop) (members : hmap (Z * ldefval D)) (T : metatable M) : Prop := {
  tf_param : forall key id p vt, hget key members = Some (id, DParam p vt) ->
    meta_get T id = Some (key, MParam (type_of p) vt);
  tf_list : forall key id d u, hget key members = Some (id, DMil d u) ->
    exists m, inner d m /\ meta_get T id = Some (key, if u then MOptMil m else MMList m);
  tf_inv : forall key id mv, meta_get T id = Some (key, mv) ->
    match mv with
    | MParam pt vt => exists p, hget key members = Some (id, DParam p vt) /\ pt = type_of p
    | MMList m => exists d, hget key members = Some (id, DMil d false) /\ inner d m
    | MOptMil m => exists d, hget key members = Some (id, DMil d true) /\ inner d m
    end }.

Lemma tf_inj {D M} (inner : D -> M -> Prop) members T : table_for inner members T ->
  forall id id' key mv mv', meta_get T id = Some (key, mv) -> meta_get T id' = Some (key, mv') -> id = id'.
Proof.
  intros H id id' key mv mv' A B. apply (tf_inv _ _ _ H) in A, B.
  destruct mv, mv'; repeat match goal with H : exists _, _ |- _ => destruct H | H : _ /\ _ |- _ => destruct H end; congruence.
Qed.

Lemma nth_error_skipn {A} a : forall (l : list A) b, nth_error (skipn a l) b = nth_error l (a + b).
Proof.
  induction a as [|a IH]; intros l b; [reflexivity|].
  destruct l as [|x l]; cbn [skipn Nat.add nth_error]; [destruct b; reflexivity|apply IH].
Qed.

Lemma vec_set_ok {A} (l : list A) i x : 0 <= i < zlen l ->
  exists l', vec_set l i x = Ok l' /\ zlen l' = zlen l /\
    forall j, zget l' j = if j =? i then Some x else zget l j.
Proof.
  intros H. unfold vec_set. replace ((0 <=? i) && (i <? zlen l)) with true by lia.
  eexists; split; [reflexivity|]. unfold zlen in *. split.
  - rewrite app_length; cbn [length]. rewrite firstn_length, skipn_length. lia.
  - intros j. unfold zget. destruct (Z.ltb_spec j 0); [destruct (Z.eqb_spec j i); [lia|reflexivity]|].
    destruct (Z.eqb_spec j i).
    + subst j. rewrite nth_error_app2; rewrite firstn_length; [|lia].
      replace (Z.to_nat i - Nat.min (Z.to_nat i) (length l))%nat with 0%nat by lia. reflexivity.
    + destruct (Z.lt_ge_cases j i).
      * rewrite nth_error_app1 by (rewrite firstn_length; lia).
        assert (Hlt : (Z.to_nat j < Z.to_nat i)%nat) by lia. clear - Hlt. revert l Hlt. generalize (Z.to_nat i) as a. generalize (Z.to_nat j) as b.
        induction b as [|b IH]; intros a l Hl; destruct a; try lia; destruct l; cbn; try reflexivity. apply IH. lia.
      * rewrite nth_error_app2; rewrite firstn_length; [|lia].
        replace (Z.to_nat j - Nat.min (Z.to_nat i) (length l))%nat with (S (Z.to_nat j - S (Z.to_nat i)))%nat by lia.
        cbn [nth_error].
        rewrite nth_error_skipn. f_equal. lia.
Qed.

Lemma zget_repeat {A} n j : zget (repeat (@None A) n) j = None \/ zget (repeat (@None A) n) j = Some None.
Proof.
  unfold zget. destruct (j <? 0); [left; reflexivity|].
  destruct (nth_error (repeat None n) (Z.to_nat j)) eqn:E; [right|left; reflexivity].
  apply nth_error_In, repeat_spec in E. congruence.
Qed.

(** building a table, for any kind of member *)
Lemma build_table {V M} (g : V -> res (option (metaval M))) (entries : hmap (Z * V)) :
  numbered entries -> (forall e, In e entries -> exists o, g (snd (snd e)) = Ok o) ->
  exists T, mfold (fun vec e => let '(key, (id, v)) := e in
                     o <- g v ; match o with Some mv => vec_set vec id (Some (key, mv)) | None => Ok vec end)
              entries (repeat None (length entries)) = Ok T /\
    forall id key mv, meta_get T id = Some (key, mv) <-> exists v, hget key entries = Some (id, v) /\ g v = Ok (Some mv).
Proof.
  intros (ND & NI & FR) Hg.
  destruct (mfold_inv (fun vec e => let '(key, (id, v)) := e in
                     o <- g v ; match o with Some mv => vec_set vec id (Some (key, mv)) | None => Ok vec end)
    (fun p T => zlen T = zlen entries /\
       forall id key mv, meta_get T id = Some (key, mv) <-> exists v, In (key, (id, v)) p /\ g v = Ok (Some mv))
    entries (repeat None (length entries))) as (T & E & L & HT).
  - split; [unfold zlen; rewrite repeat_length; reflexivity|]. intros id key mv. unfold meta_get.
    destruct (@zget_repeat (name * metaval M) (length entries) id) as [-> | ->]; split; try discriminate; intros (v & [] & _).
  - intros p [key0 [id0 v0]] r T E [L HT]. subst entries. destruct (Hg (key0, (id0, v0))) as [o Eo]; [apply in_elt|].
    cbn in Eo. rewrite Eo; cbn [bind].
    assert (Fresh : forall key v, In (key, (id0, v)) p -> False).
    { intros key v I. rewrite map_app in NI. cbn [map] in NI. apply NoDup_remove_2 in NI. apply NI.
      apply in_or_app. left. apply in_map_iff. exists (key, (id0, v)). auto. }
    destruct o as [mv0|].
    + rewrite Forall_forall in FR. assert (R : 0 <= id0 < zlen T) by (rewrite L; apply (FR (key0, (id0, v0))), in_elt).
      destruct (vec_set_ok T id0 (Some (key0, mv0)) R) as (T' & -> & L' & G).
      exists T'; split; [reflexivity|]. split; [lia|]. intros id key mv. unfold meta_get. rewrite G.
      destruct (Z.eqb_spec id id0).
      * subst id0. split.
        -- intros H; injection H as -> ->. exists v0. split; [apply in_elt|exact Eo].
        -- intros (v & I & Ev). apply in_app_or in I as [I|[I|[]]]; [exfalso; eauto|]. injection I as -> ->. rewrite Eo in Ev. congruence.
      * fold (meta_get T id). rewrite HT. split; intros (v & I & Ev); exists v; (split; [|exact Ev]).
        -- apply in_or_app; auto.
        -- apply in_app_or in I as [I|[I|[]]]; [exact I|]. congruence.
    + exists T; split; [reflexivity|]. split; [exact L|]. intros id key mv. rewrite HT.
      split; intros (v & I & Ev); exists v; (split; [|exact Ev]).
      * apply in_or_app; auto.
      * apply in_app_or in I as [I|[I|[]]]; [exact I|]. injection I as -> -> ->. congruence.
  - exists T; split; [exact E|]. intros id key mv. rewrite HT. split; intros (v & I & Ev); exists v; (split; [|exact Ev]).
    + apply in_hget; assumption.
    + apply hget_in; assumption.
Qed.

Lemma from_ref_def_ok {M} refs : numbered refs ->
  exists T, @from_ref_def M refs = Ok T /\
    forall id key mv, meta_get T id = Some (key, mv) <-> exists v vt, hget key refs = Some (id, (v, vt)) /\ mv = MParam TString vt.
Proof.
  intros H. destruct (build_table (fun x : qv (list Z) * var_type => Ok (Some (@MParam M TString (snd x)))) refs H) as (T & E & G).
  { intros; eexists; reflexivity. }
  exists T; split.
  - etransitivity; [|exact E]. unfold from_ref_def. apply mfold_ext. intros a [key [id [v vt]]] _. reflexivity.
  - intros id key mv. rewrite G. split.
    + intros ([v vt] & A & B). exists v, vt. cbn in B. split; [exact A|]. congruence.
    + intros (v & vt & A & B). exists (v, vt). cbn. split; [exact A|congruence].
Qed.

Definition member_meta {D M} (inner : D -> res M) (v : ldefval D) : res (option (metaval M)) :=
  match v with
  | DParam p vt => Ok (Some (MParam (type_of p) vt))
  | DMil d u => m <- inner d ; Ok (Some (if u then MOptMil m else MMList m))
  | DCil _ => Ok None
  end.

Lemma from_list_def_ok {D M} (inner : D -> res M) (wf : D -> Prop) members : numbered members ->
  (forall d, wf d -> exists m, inner d = Ok m) ->
  Forall (fun e => match snd (snd e) with DMil d' _ => wf d' | _ => True end) members ->
  exists T, from_list_def inner members = Ok T /\ table_for (fun d m => wf d /\ inner d = Ok m) members T.
Proof.
  intros H Hi Hw. rewrite Forall_forall in Hw.
  destruct (build_table (member_meta inner) members H) as (T & E & G).
  { intros [key [id v]] I. specialize (Hw _ I). cbn in *. destruct v; cbn; [eexists; reflexivity|eexists; reflexivity|].
    destruct (Hi _ Hw) as [m ->]. eexists; reflexivity. }
  exists T; split.
  - etransitivity; [|exact E]. unfold from_list_def. apply mfold_ext. intros a [key [id v]] _. destruct v; cbn; try reflexivity.
    destruct (inner d); reflexivity.
  - split.
    + intros key id p vt A. apply G. exists (DParam p vt). split; [exact A|reflexivity].
    + intros key id d u A. pose proof (Hw _ (hget_in _ _ _ A)) as W; cbn in W. destruct (Hi _ W) as [m Em].
      exists m. split; [auto|]. apply G. exists (DMil d u). split; [exact A|]. cbn. rewrite Em. reflexivity.
    + intros key id mv A. apply G in A as (v & A & B). pose proof (Hw _ (hget_in _ _ _ A)) as W; cbn in W.
      destruct v as [p vt|d|d u]; cbn in B; try discriminate.
      * apply Ok_inj, Some_inj in B; subst mv. eauto.
      * destruct (inner d) as [m| |] eqn:Em; try discriminate. cbn in B. apply Ok_inj, Some_inj in B; subst mv.
        destruct u; exists d; auto.
Qed.

(** the tables of a definition *)
Definition tablesT (n : nat) (d : defT n) (m : metaT n) : Prop := wf_defT n d /\ make_tables n d = Ok m.

Record tables_for {D M} (inner : D -> M -> Prop) (d : ldef D) (m : metatables M) : Prop := {
  ts_items : table_for inner (ld_members d) (mt_items m);
  ts_refs : forall id key mv, meta_get (mt_refs m) id = Some (key, mv) <->
              exists v vt, hget key (ld_refs d) = Some (id, (v, vt)) /\ mv = MParam TString vt;
  ts_num : Forall (fun e => 0 <= fst (snd e)) (ld_members d);
  ts_rnum : Forall (fun e => 0 <= fst (snd e)) (ld_refs d) }.

Lemma numbered_nonneg {A} (m : hmap (Z * A)) : numbered m -> Forall (fun e => 0 <= fst (snd e)) m.
Proof. intros (_ & _ & F). eapply Forall_impl; [|exact F]. cbn; intros; lia. Qed.

Lemma tables_of_ok {D M} (inner : D -> res M) (wf : D -> Prop) d : (forall d, wf d -> exists m, inner d = Ok m) -> wf_def wf d ->
  exists m, tables_of inner d = Ok m /\ tables_for (fun d m => wf d /\ inner d = Ok m) d m.
Proof.
  intros Hi (N & NR & W). destruct (from_list_def_ok inner wf _ N Hi W) as (T & E & H).
  destruct (@from_ref_def_ok M _ NR) as (R & ER & HR).
  exists (Tables T R). unfold tables_of. rewrite E; cbn [bind]. rewrite ER; cbn [bind]. split; [reflexivity|].
  split; auto using numbered_nonneg.
Qed.

Lemma make_tables_ok n : forall d, wf_defT n d -> exists m, make_tables n d = Ok m.
Proof.
  induction n as [|n IH]; intros d H; [destruct H|]. cbn [make_tables wf_defT] in *.
  destruct (tables_of_ok (make_tables n) (wf_defT n) d IH H) as (m & E & _). exists m; exact E.
Qed.

Lemma tablesT_for n d m : tablesT (S n) d m -> tables_for (tablesT n) d m.
Proof.
  intros [W E]. cbn [make_tables wf_defT] in *.
  destruct (tables_of_ok (make_tables n) (wf_defT n) d (make_tables_ok n) W) as (m' & E' & H).
  rewrite E in E'. apply Ok_inj in E'; subst m'. exact H.
Qed.
