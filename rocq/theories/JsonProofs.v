(** Reading source files never panics on its own, and numbers members properly (C44). *)
From Coq Require Import String.
From Verif Require Import Base StringCompactionModel StringCompactionProofs DocModel DiffSpec DiffProofs ArchiveModel
  JsonModel JsonSpec JsonNameProofs.

(* ------------------------------------------------------------------ *)
(** * Outcomes *)

(** no panic, and a result with the property [P] *)
Definition good {A} (P : A -> Prop) (r : res A) : Prop := match r with Ok a => P a | Err => True | Panic => False end.

Lemma good_bind {A B} (P : A -> Prop) (Q : B -> Prop) r (f : A -> res B) : good P r -> (forall a, P a -> good Q (f a)) -> good Q (bind r f).
Proof. destruct r; cbn; auto. Qed.
Lemma good_impl {A} (P Q : A -> Prop) r : good P r -> (forall a, P a -> Q a) -> good Q r.
Proof. destruct r; cbn; auto. Qed.
Lemma good_ok {A} (P : A -> Prop) r a : good P r -> r = Ok a -> P a.
Proof. intros H ->. exact H. Qed.
Lemma good_panic {A} (P : A -> Prop) r : good P r -> r <> Panic.
Proof. intros H ->. exact H. Qed.

Lemma good_mfold {A B} (P : A -> Prop) (f : A -> B -> res A) l : (forall a b, In b l -> P a -> good P (f a b)) ->
  forall a, P a -> good P (mfold f l a).
Proof.
  induction l as [|b l IH]; intros H a Ha; cbn [mfold]; [exact Ha|].
  eapply good_bind; [apply H; [left; reflexivity|exact Ha]|]. intros a' Ha'. apply IH; [|exact Ha']. intros; apply H; [right|]; assumption.
Qed.

Lemma good_mmap {A B} (P : B -> Prop) (f : A -> res B) l : (forall a, In a l -> good P (f a)) -> good (Forall P) (mmap f l).
Proof.
  induction l as [|b l IH]; intros H; cbn [mmap]; [constructor|].
  eapply good_bind; [apply H; left; reflexivity|]. intros x Hx. eapply good_bind; [apply IH; intros; apply H; right; assumption|].
  intros r Hr. constructor; assumption.
Qed.

(* ------------------------------------------------------------------ *)
(** * Hash maps and numbers *)

Lemma nodup_app_l {A} (l l' : list A) : NoDup (l ++ l') -> NoDup l.
Proof.
  induction l as [|a l IH]; cbn; intros H; [constructor|]. inversion H as [|? ? H1 H2]; subst.
  constructor; [|auto]. intros I; apply H1, in_or_app; auto.
Qed.
Lemma nodup_app_r {A} (l l' : list A) : NoDup (l ++ l') -> NoDup l'.
Proof. induction l as [|a l IH]; cbn; intros H; [exact H|]. inversion H; auto. Qed.

Lemma hset_fresh {A} k (v : A) m : ~ In k (map fst m) -> hset k v m = m ++ [(k, v)].
Proof.
  induction m as [|[x a] m IH]; cbn; intros H; [reflexivity|]. rewrite (eqb_bytes_neq x k) by (intros ->; auto).
  f_equal. apply IH. auto.
Qed.

Lemma hset_keys {A} k (v : A) m x : In x (map fst (hset k v m)) <-> x = k \/ In x (map fst m).
Proof.
  induction m as [|[y a] m IH]; cbn; [intuition|]. destruct (eqb_bytes y k) eqn:E.
  - apply eqb_bytes_eq in E; subst y. cbn. intuition.
  - cbn. rewrite IH. intuition.
Qed.

Lemma hset_nodup {A} k (v : A) m : NoDup (map fst m) -> NoDup (map fst (hset k v m)).
Proof.
  induction m as [|[y a] m IH]; cbn; intros H; [repeat constructor; auto|]. inversion H as [|? ? H1 H2]; subst.
  destruct (eqb_bytes y k) eqn:E; cbn; [constructor; assumption|]. constructor; [|auto].
  rewrite hset_keys. intros [-> | I]; [|auto]. rewrite eqb_bytes_refl in E; discriminate.
Qed.

Lemma in_hset {A} k (v : A) m x a : In (x, a) (hset k v m) -> (x = k /\ a = v) \/ In (x, a) m.
Proof.
  induction m as [|[y b] m IH]; cbn; [intros [H|[]]; injection H as <- <-; auto|]. destruct (eqb_bytes y k) eqn:E; cbn.
  - apply eqb_bytes_eq in E; subst y. intros [H|H]; [injection H as <- <-|]; auto.
  - intros [H|H]; [auto|]. destruct (IH H); auto.
Qed.

Lemma numbered_nil {A} : numbered (@nil (name * (Z * A))).
Proof. repeat split; constructor. Qed.

Lemma numbered_snoc {A} (m : hmap (Z * A)) k v : numbered m -> ~ In k (map fst m) -> numbered (m ++ [(k, (zlen m, v))]).
Proof.
  intros (N1 & N2 & F) Hk. unfold numbered. rewrite !map_app, zlen_app. cbn [map fst snd].
  assert (L : zlen [(k, (zlen m, v))] = 1) by reflexivity. rewrite L.
  split; [|split].
  - apply NoDup_rev in N1. rewrite <- (rev_involutive (map fst m ++ [k])). apply NoDup_rev.
    rewrite rev_app_distr. cbn. constructor; [rewrite <- in_rev; exact Hk|exact N1].
  - apply NoDup_rev in N2. rewrite <- (rev_involutive (_ ++ [zlen m])). apply NoDup_rev. rewrite rev_app_distr. cbn. constructor; [|exact N2].
    rewrite <- in_rev, in_map_iff. intros (e & E & I). rewrite Forall_forall in F. specialize (F _ I). lia.
  - apply Forall_app. split; [eapply Forall_impl; [|exact F]; cbn; intros; lia|]. constructor; [|constructor]. cbn. pose proof (zlen_nonneg m). lia.
Qed.

Lemma numbered_perm {A} (m m' : hmap (Z * A)) : Permutation m m' -> numbered m -> numbered m'.
Proof.
  intros P (N1 & N2 & F). split; [|split].
  - eapply Permutation_NoDup; [apply Permutation_map, P|exact N1].
  - eapply Permutation_NoDup; [apply (Permutation_map (fun e => fst (snd e))), P|exact N2].
  - rewrite Forall_forall in *. intros e I. apply Permutation_sym in P. specialize (F e (Permutation_in _ P I)).
    replace (zlen m') with (zlen m); [exact F|]. unfold zlen. rewrite (Permutation_length P). reflexivity.
Qed.

Lemma numbered_map {A B} (f : A -> B) (m : hmap (Z * A)) : numbered m -> numbered (map (fun e => (fst e, (fst (snd e), f (snd (snd e))))) m).
Proof.
  intros (N1 & N2 & F). unfold numbered, zlen. rewrite !map_map, map_length. cbn. split; [exact N1|]. split; [exact N2|].
  rewrite Forall_map. exact F.
Qed.

(** numbering the entries of a map anew *)
Lemma good_renumber_from {A B} (f : A -> res B) (Q : B -> Prop) (l : hmap A) : forall acc : hmap (Z * B),
  NoDup (map fst acc ++ map fst l) -> (forall k a, In (k, a) l -> good Q (f a)) ->
  numbered acc -> (forall k i b, In (k, (i, b)) acc -> Q b) ->
  good (fun r => numbered r /\ (forall k i b, In (k, (i, b)) r -> Q b) /\ map fst r = map fst acc ++ map fst l)
    (mfold (fun r e => let '(idx, (k, a)) := e in b <- f a ; Ok (hset k (idx, b) r)) (enumerate_from (zlen acc) l) acc).
Proof.
  induction l as [|[k a] l IH]; intros acc ND H N HQ; cbn [enumerate_from mfold map fst].
  - cbn. rewrite app_nil_r. auto.
  - eapply good_bind with (P := fun r => exists b, Q b /\ r = acc ++ [(k, (zlen acc, b))]).
    + eapply good_bind; [apply (H k a); left; reflexivity|]. intros b Hb. exists b. split; [exact Hb|]. apply hset_fresh.
      cbn in ND. apply NoDup_remove_2 in ND. intros I; apply ND, in_or_app; auto.
    + intros r (b & Hb & ->). cbn in ND. pose proof (NoDup_remove_2 _ _ _ ND) as Nk.
      replace (zlen acc + 1) with (zlen (acc ++ [(k, (zlen acc, b))])) by (rewrite zlen_app; reflexivity).
      eapply good_impl; [apply IH|].
      * rewrite map_app. cbn. rewrite <- app_assoc. exact ND.
      * intros; eapply H; right; eassumption.
      * apply numbered_snoc; [exact N|]. intros I; apply Nk, in_or_app; auto.
      * intros k' i' b' I. apply in_app_or in I as [I|[I|[]]]; [eauto|]. congruence.
      * intros r (A1 & A2 & A3). split; [exact A1|]. split; [exact A2|]. rewrite A3, map_app. cbn. rewrite <- app_assoc. reflexivity.
Qed.

Lemma good_renumber {A B} (f : A -> res B) (Q : B -> Prop) (l : hmap A) :
  NoDup (map fst l) -> (forall k a, In (k, a) l -> good Q (f a)) ->
  good (fun r => numbered r /\ (forall k i b, In (k, (i, b)) r -> Q b) /\ map fst r = map fst l)
    (mfold (fun r e => let '(idx, (k, a)) := e in b <- f a ; Ok (hset k (idx, b) r)) (enumerate l) []).
Proof. intros ND H. apply (good_renumber_from f Q l []); auto using numbered_nil. intros k i b []. Qed.

(* ------------------------------------------------------------------ *)
(** * Depth *)

Lemma list_max_in {A} (f : A -> nat) x l : In x l -> (f x <= list_max (map f l))%nat.
Proof.
  intros I. pose proof (proj1 (list_max_le (map f l) (list_max (map f l))) (le_n _)) as H. rewrite Forall_map, Forall_forall in H. apply H, I.
Qed.

Definition dl (l : list jval) : nat := list_max (map jdepth l).
Definition dm (m : list (name * jval)) : nat := list_max (map (fun e => jdepth (snd e)) m).

Lemma dl_in x l : In x l -> (jdepth x <= dl l)%nat.
Proof. apply (list_max_in jdepth). Qed.
Lemma dm_in k x m : In (k, x) m -> (jdepth x <= dm m)%nat.
Proof. intros I. apply (list_max_in (fun e => jdepth (snd e)) (k, x) m I). Qed.
Lemma dl_tl l : (dl (tl l) <= dl l)%nat.
Proof. destruct l as [|x l]; cbn; lia. Qed.

(* ------------------------------------------------------------------ *)
(** * What the conversion keeps *)

Definition rv_wf (v : rvalue) : Prop :=
  match v with
  | VaParam _ _ | VaCil _ | VaMil _ => True
  | VaTable d _ _ | VaCList d _ | VaMList d _ _ | VaCilDef d | VaMilDef d _ => well_numbered d
  end.

Definition tmp_wf (o : tmp_obj) : Prop :=
  NoDup (map fst (to_default o)) /\ (forall k i v, In (k, (i, v)) (to_default o) -> rv_wf v) /\ numbered (tr_map (to_refs o)).

Definition tl_wf (t : tmp_list) : Prop :=
  Forall tmp_wf (tl_vec t) /\ forall d, tl_default t = Some d -> well_numbered d.

Section Conversion.
Variable addr : list Z -> Z.
Variable iter : forall A, hmap A -> hmap A.
Hypothesis It : iterates iter.

Lemma iter_keys {A} (m : hmap A) : Permutation (map fst (iter A m)) (map fst m).
Proof. apply Permutation_map, It. Qed.
Lemma iter_nodup {A} (m : hmap A) : NoDup (map fst m) -> NoDup (map fst (iter A m)).
Proof. intros H. eapply Permutation_NoDup; [apply Permutation_sym, iter_keys|exact H]. Qed.
Lemma iter_in {A} (m : hmap A) e : In e (iter A m) -> In e m.
Proof. apply Permutation_in, It. Qed.

Lemma list_def_wf o : tmp_wf o -> good well_numbered (into_list_def_obj iter o).
Proof.
  intros (N & Hv & Hr). unfold into_list_def_obj. destruct (to_id o); [exact I|]. unfold to_list_def_val_map.
  eapply good_bind.
  - erewrite mfold_ext; [apply (good_renumber (fun x : Z * rvalue => into_list_def_value (snd x))
      (fun b => match b with DParam _ _ => True | DCil d => well_numbered d | DMil d _ => well_numbered d end))|].
    + apply iter_nodup, N.
    + intros k [i v] Ik. apply iter_in in Ik. apply Hv in Ik. destruct v; cbn; auto.
    + intros a [idx [k [i v]]] _. reflexivity.
  - intros ms (A1 & A2 & _). constructor; cbn; [exact A1|exact Hr| |]; intros key id d' *; [intros Id|intros Id]; apply (A2 _ _ _ Id).
Qed.

Lemma item_of_wf o : good (fun _ => True) (item_of iter o).
Proof.
  unfold item_of, to_list_sab_map. eapply good_bind; [|intros; exact I].
  apply (good_mfold (fun _ => True)); [|exact I]. intros a [k [i v]] _ _. destruct v; cbn; auto.
Qed.
Lemma into_list_item_wf o : good (fun _ => True) (into_list_item iter o).
Proof. unfold into_list_item. destruct (to_id o); [exact I|]. destruct (_ && _); [apply item_of_wf|exact I]. Qed.
Lemma into_list_item_with_id_wf o : good (fun _ => True) (into_list_item_with_id iter o).
Proof.
  unfold into_list_item_with_id. destruct (to_id o) as [[]|]; try exact I; destruct (_ && _); try exact I.
  eapply good_bind; [apply item_of_wf|intros; exact I].
Qed.
Lemma into_mut_list_item_wf o i : good (fun _ => True) (into_mut_list_item iter o i).
Proof.
  unfold into_mut_list_item. eapply good_bind with (P := fun _ => True); [destruct (to_id o) as [[]|]; exact I|].
  intros id _. destruct (_ && _); [|exact I]. eapply good_bind; [apply item_of_wf|intros; exact I].
Qed.
Lemma to_list_items_wf l : good (fun _ => True) (to_list_items iter l).
Proof. eapply good_impl; [apply good_mmap; intros; apply into_list_item_wf|auto]. Qed.
Lemma to_data_items_wf l : good (fun _ => True) (to_data_items iter l).
Proof.
  apply (good_mfold (fun _ => True)); [|exact I]. intros a o _ _. eapply good_bind; [apply into_list_item_with_id_wf|]. intros [s m] _; exact I.
Qed.
Lemma to_mut_list_items_wf l n : good (fun _ => True) (to_mut_list_items iter l n).
Proof.
  eapply good_bind; [apply good_mmap; intros; apply into_mut_list_item_wf|]. intros; exact I.
Qed.

Lemma lists_wf t : tl_wf t ->
  good rv_wf (into_const_list iter t) /\ good rv_wf (into_inner_list iter t) /\ good rv_wf (into_const_data iter t) /\
  (forall u, good rv_wf (into_mut_list iter t u)) /\ good rv_wf (into_mut_inner_list iter t) /\
  good rv_wf (into_inner_def t) /\ (forall u, good rv_wf (into_inner_mut_def t u)).
Proof.
  intros [Hv Hd]. split; [|split; [|split; [|split; [|split; [|split]]]]].
  - unfold into_const_list. destruct (is_some (tl_old t)); [exact I|]. destruct (tl_default t) as [d|]; [|exact I]. destruct (is_some (tl_next t)); [exact I|].
    eapply good_bind; [apply to_list_items_wf|]. intros items _. apply Hd; reflexivity.
  - unfold into_inner_list. destruct (_ || _); [exact I|]. eapply good_bind; [apply to_list_items_wf|]. intros; exact I.
  - unfold into_const_data. destruct (tl_default t) as [d|]; [|exact I]. destruct (is_some (tl_next t)); [exact I|].
    eapply good_bind; [apply to_data_items_wf|]. intros items _. apply Hd; reflexivity.
  - intros u. unfold into_mut_list. destruct (is_some (tl_old t)); [exact I|]. destruct (tl_default t) as [d|]; [|exact I].
    eapply good_bind; [apply to_mut_list_items_wf|]. intros items _. apply Hd; reflexivity.
  - unfold into_mut_inner_list. destruct (_ || _); [exact I|]. eapply good_bind; [apply to_mut_list_items_wf|]. intros; exact I.
  - unfold into_inner_def, only_default. destruct (is_some (tl_old t)); [exact I|]. destruct (tl_default t) as [d|]; [|exact I].
    destruct (_ || _); [exact I|]. apply Hd; reflexivity.
  - intros u. unfold into_inner_mut_def, only_default. destruct (is_some (tl_old t)); [exact I|]. destruct (tl_default t) as [d|]; [|exact I].
    destruct (_ || _); [exact I|]. apply Hd; reflexivity.
Qed.

Section Step.
Variable arr : list jval -> var_type -> res rvalue.
Variable obj : list (name * jval) -> bool -> res tmp_obj.
Variable n : nat.
Hypothesis Harr : forall a vt, (dl a < n)%nat -> good rv_wf (arr a vt).
Hypothesis Hobj : forall m b, (dm m < n)%nat -> good tmp_wf (obj m b).

Lemma array_item_wf t a x : (dl a < S n)%nat -> In x a ->
  good (fun p => match t with AtFloat => exists f, p = PFloat (Val f) | _ => exists i, p = PInt (Val i) end) (array_item arr t x).
Proof.
  intros D Ix. apply dl_in in Ix. destruct x; cbn; try exact I.
  - destruct t; cbn; eauto.
  - destruct t; cbn; eauto.
  - destruct t; cbn; auto. eapply good_bind; [apply Harr; cbn in Ix; fold (dl l) in Ix; lia|].
    intros rv _. destruct rv; try exact I. destruct p; try exact I. destruct q; try exact I. cbn. eauto.
Qed.

Lemma get_array_wf t a : (dl a < S n)%nat ->
  good (fun q => match q with
                 | Val l => Forall (fun p => match t with AtFloat => exists f, p = PFloat (Val f) | _ => exists i, p = PInt (Val i) end) l
                 | _ => True end) (get_array arr a t).
Proof.
  intros D. unfold get_array.
  assert (G : good (fun q => match q with
                 | Val l => Forall (fun p => match t with AtFloat => exists f, p = PFloat (Val f) | _ => exists i, p = PInt (Val i) end) l
                 | _ => True end) (l <- mmap (array_item arr t) a ; Ok (Val l))).
  { eapply good_bind; [apply good_mmap; intros x Ix; eapply array_item_wf; eassumption|]. intros l Hl; exact Hl. }
  destruct a as [|[] [|]]; try exact I; exact G.
Qed.

Lemma to_ints_some l : Forall (fun p => exists i, p = PInt (Val i)) l -> exists a, to_ints l = Some a.
Proof. induction 1 as [|p l [i ->] _ [a IH]]; [exists []; reflexivity|]. unfold to_ints in *. cbn. rewrite IH. eauto. Qed.

Lemma to_param_wf q t : good (fun _ => True) (to_param addr q t).
Proof. destruct t; cbn; (eapply good_bind with (P := fun _ => True); [destruct (opt_map _ q); exact I|intros; exact I]). Qed.

Lemma get_default_wf a : (dl a < S n)%nat -> good well_numbered (get_default iter obj a).
Proof.
  intros D. unfold get_default. destruct a as [|[] [|]]; try exact I.
  eapply good_bind; [apply Hobj; cbn in D; fold (dm m) in D; lia|]. apply list_def_wf.
Qed.

Lemma get_old_wf a : good (fun _ => True) (get_old a).
Proof.
  apply (good_mfold (fun _ => True)); [|exact I]. intros r x _ _. destruct x; try exact I. destruct (json_name s) as [[? []|]|]; exact I.
Qed.

Lemma list_attribute_wf a : (dl a < S n)%nat ->
  good (fun at' => match at' with ADefault d => well_numbered d | _ => True end) (list_attribute iter obj a).
Proof.
  intros D. unfold list_attribute. destruct a as [|[] rest]; try exact I.
  - destruct (eqb_bytes s (txt "Default")).
    + eapply good_bind; [apply get_default_wf; pose proof (dl_tl (JString s :: rest)) as DT; cbn [tl] in DT; lia|auto].
    + destruct (eqb_bytes s (txt "Old")); [eapply good_bind; [apply get_old_wf|intros; exact I]|].
      destruct (eqb_bytes s (txt "NextID")); [|exact I]. destruct rest as [|[] [|]]; exact I.
  - eapply good_bind; [apply get_default_wf; exact D|auto].
Qed.

Lemma json_list_wf a : forall t, (dl a < S n)%nat -> tl_wf t -> good tl_wf (json_list_loop iter obj t a).
Proof.
  induction a as [|x a IH]; intros t D W; cbn [json_list_loop]; [exact W|].
  assert (Da : (dl a < S n)%nat) by (pose proof (dl_tl (x :: a)) as DT; cbn [tl] in DT; lia).
  pose proof (dl_in x (x :: a) (or_introl eq_refl)) as Dx.
  destruct x; try exact I.
  - eapply good_bind; [apply list_attribute_wf; cbn [jdepth] in Dx; fold (dl l) in Dx; lia|].
    intros at' Hat. eapply good_bind with (P := tl_wf); [|intros t' Wt; apply IH; assumption].
    destruct W as [Wv Wd]. destruct at'; cbn.
    + destruct (is_some (tl_default t)); [exact I|]. split; [exact Wv|]. cbn. intros d' E; congruence.
    + destruct (is_some (tl_old t)); [exact I|]. split; [exact Wv|exact Wd].
    + destruct (is_some (tl_next t)); [exact I|]. split; [exact Wv|exact Wd].
  - eapply good_bind; [apply good_mmap with (P := tmp_wf)|].
    + intros y Iy. destruct y; try exact I. apply Hobj. apply dl_in in Iy. cbn [jdepth] in Iy. fold (dm m0) in Iy. lia.
    + intros items Hi. split; [exact Hi|]. apply W.
Qed.

Lemma array_null_wf a g vt : (match g with GFloat | GInt | GStr | GBool => True | _ => False end) -> good rv_wf (array_null_or_undefined a g vt).
Proof. intros H. unfold array_null_or_undefined. destruct a as [|[] [|]]; try exact I; destruct g; try exact I; destruct H. Qed.

Lemma json_array_wf a vt : (dl a < S n)%nat -> good rv_wf (json_array_to_rust addr iter arr obj a vt).
Proof.
  intros D. assert (Dt : (dl (tl a) < S n)%nat) by (pose proof (dl_tl a); lia).
  assert (W0 : good tl_wf (json_list_to_rust iter obj (tl a))).
  { apply json_list_wf; [exact Dt|]. split; [constructor|]. cbn; discriminate. }
  unfold json_array_to_rust. destruct (get_array_type a) eqn:G; try exact I.
  1:{ eapply good_bind; [apply get_array_wf; exact Dt|]. intros q _. eapply good_bind; [apply to_param_wf|]. intros; exact I. }
  all: try (apply array_null_wf; exact I).
  8:{ eapply good_bind; [apply get_array_wf; exact D|]. intros q Hq.
      assert (E : exists p, to_param addr q AtInt = Ok p).
      { destruct q as [l| |]; cbn; eauto. destruct (to_ints_some l Hq) as [x ->]. cbn. eauto. }
      destruct E as [p ->]. exact I. }
  all: destruct vt; try exact I.
  all: eapply good_bind; [exact W0|]; intros t Wt; destruct (lists_wf t Wt) as (L1 & L2 & L3 & L4 & L5 & L6 & L7); auto; exact I.
Qed.

Lemma get_ref_wf m : (dm m < n)%nat -> good (fun r => numbered (tr_map r)) (get_ref iter obj m).
Proof.
  intros D. unfold get_ref. eapply good_bind; [apply Hobj; exact D|]. intros o (N & Hv & Hr). destruct (_ || _); [exact I|].
  eapply good_bind with (P := fun r => numbered r).
  - erewrite mfold_ext; [eapply good_impl; [apply (good_renumber (fun x : Z * rvalue =>
        match snd x with
        | VaParam (PString q) vt =>
            match q with
            | Val s => if negb (is_some (json_simple_name (snd s))) && negb (is_nil (snd s)) then Err else Ok (ref_text q, vt)
            | _ => Ok (ref_text q, vt)
            end
        | _ => Err
        end) (fun _ => True))|intros r A; apply A]|].
    + apply iter_nodup, N.
    + intros k [i v] _. cbn. destruct v; try exact I. destruct p; try exact I. destruct q; try exact I. destruct (_ && _); exact I.
    + intros r [idx [k [i v]]] _. cbn. destruct v; try reflexivity. destruct p; try reflexivity. destruct q; try reflexivity. destruct (_ && _); reflexivity.
  - intros r Hr'. exact Hr'.
Qed.

Lemma obj_step_wf is_ref m st e : (dm m < S n)%nat -> In e m -> tmp_wf (fst st) -> good (fun st => tmp_wf (fst st)) (obj_step addr iter arr obj is_ref st e).
Proof.
  intros D Ie W. destruct st as [r c], e as [k v]. apply dm_in in Ie. destruct W as (N & Hv & Hr). cbn [fst] in *.
  unfold obj_step. destruct (json_name k) as [[nm vt|sn]|]; [| |exact I].
  - eapply good_bind with (P := rv_wf).
    + destruct is_ref; destruct v; try exact I. cbn. apply Harr. cbn in Ie; fold (dl l) in Ie; lia.
    + intros x Hx. cbn. split; [apply hset_nodup, N|]. split; [|exact Hr]. cbn. intros k' i' v' I'. apply in_hset in I' as [[_ E]|I']; [|eauto].
      injection E as -> ->. exact Hx.
  - destruct sn.
    + destruct v; try exact I. eapply good_bind; [apply get_old_wf|]. intros old _. cbn. split; [exact N|]. split; assumption.
    + destruct (is_some (to_id r)); [exact I|]. destruct (get_id v); [|exact I]. cbn. split; [exact N|]. split; assumption.
    + destruct (negb _); [exact I|]. destruct v; try exact I. eapply good_bind; [apply get_ref_wf; cbn in Ie; fold (dm m0) in Ie; lia|].
      intros rf Hrf. cbn. split; [exact N|]. split; [exact Hv|exact Hrf].
    + destruct (negb _); [exact I|]. destruct v; try exact I. eapply good_bind; [apply get_ref_wf; cbn in Ie; fold (dm m0) in Ie; lia|].
      intros rf Hrf. cbn. split; [exact N|]. split; [exact Hv|exact Hrf].
Qed.

Lemma new_tmp_obj_wf : tmp_wf new_tmp_obj.
Proof. split; [constructor|]. split; [intros k i v []|apply numbered_nil]. Qed.

Lemma json_obj_wf m b : (dm m < S n)%nat -> good tmp_wf (json_obj_to_rust addr iter arr obj m b).
Proof.
  intros D. unfold json_obj_to_rust. eapply good_bind.
  - apply (good_mfold (fun st => tmp_wf (fst st))); [|exact new_tmp_obj_wf]. intros st e Ie W. eapply obj_step_wf; eassumption.
  - intros [r c] W. exact W.
Qed.
End Step.

Lemma convert_wf n : (forall a vt, (dl a < n)%nat -> good rv_wf (arr_of addr iter n a vt)) /\
  (forall m b, (dm m < n)%nat -> good tmp_wf (obj_of addr iter n m b)).
Proof.
  induction n as [|n [IA IO]]; [split; intros; lia|]. unfold arr_of, obj_of in *. cbn [convert].
  destruct (convert addr iter n) as [arr obj]. cbn [fst snd] in *. split; intros.
  - apply json_array_wf with (n := n); auto.
  - apply json_obj_wf with (n := n); auto.
Qed.

Lemma item_str_wf v vt : good rv_wf (json_item_str_to_rust addr iter v vt).
Proof.
  unfold json_item_str_to_rust. destruct v; try exact I. cbn [json_item_to_rust]. apply (convert_wf _). cbn [jdepth]. fold (dl l). lia.
Qed.

(* ------------------------------------------------------------------ *)
(** * Numbers of root members *)

(** the members of an object without repeated names are numbered in order *)
Definition in_order (o : tmp_obj) (c : Z) (names : list name) : Prop :=
  map fst (to_default o) = names /\ numbered (to_default o) /\ c = zlen (to_default o).

Lemma obj_step_order arr obj is_ref st e st' names : obj_step addr iter arr obj is_ref st e = Ok st' ->
  in_order (fst st) (snd st) names -> NoDup (names ++ member_names [e]) -> in_order (fst st') (snd st') (names ++ member_names [e]).
Proof.
  destruct st as [r c], e as [k v], st' as [r' c']. cbn [fst snd]. intros E (K & N & C) ND.
  assert (Same : to_default r' = to_default r -> c' = c -> member_names [(k, v)] = [] -> in_order r' c' (names ++ member_names [(k, v)])).
  { intros E1 -> ->. rewrite app_nil_r. unfold in_order. rewrite E1. auto. }
  unfold obj_step in E. unfold member_names in ND, Same |- *. cbn [flat_map fst] in *. destruct (json_name k) as [[nm vt|sn]|] eqn:J; [| |discriminate].
  - clear Same. apply bind_ok in E as (x & _ & E). apply Ok_inj in E. apply pair_equal_spec in E as [<- <-]. cbn [app] in *.
    assert (F : ~ In nm (map fst (to_default r))) by (rewrite K; apply NoDup_remove_2 in ND; rewrite app_nil_r in ND; exact ND).
    unfold in_order. cbn [to_default]. rewrite (hset_fresh _ _ _ F), C. split; [rewrite map_app, K; reflexivity|].
    split; [apply numbered_snoc; assumption|]. rewrite zlen_app. reflexivity.
  - apply Same; [| |reflexivity]; clear Same; destruct sn.
    all: try (destruct v; try discriminate; apply bind_ok in E as (x & _ & E); apply Ok_inj in E; apply pair_equal_spec in E as [<- <-]; reflexivity).
    all: try (destruct (is_some (to_id r)); [discriminate|]; destruct (get_id v); [|discriminate]; apply Ok_inj in E; apply pair_equal_spec in E as [<- <-]; reflexivity).
    all: destruct (negb _); [discriminate|]; destruct v; try discriminate; apply bind_ok in E as (x & _ & E); apply Ok_inj in E; apply pair_equal_spec in E as [<- <-]; reflexivity.
Qed.

Lemma member_names_cons e m : member_names (e :: m) = member_names [e] ++ member_names m.
Proof. unfold member_names. cbn [flat_map]. rewrite app_nil_r. reflexivity. Qed.

Lemma obj_order arr obj is_ref m : forall st st' names, mfold (obj_step addr iter arr obj is_ref) m st = Ok st' ->
  in_order (fst st) (snd st) names -> NoDup (names ++ member_names m) -> in_order (fst st') (snd st') (names ++ member_names m).
Proof.
  induction m as [|e m IH]; intros st st' names E H ND; cbn [mfold] in E.
  - apply Ok_inj in E; subst st'. unfold member_names. cbn. rewrite app_nil_r. exact H.
  - apply bind_ok in E as (s & E1 & E2). rewrite member_names_cons, app_assoc in ND |- *. eapply IH; [exact E2| |exact ND].
    eapply obj_step_order; [exact E1|exact H|]. clear - ND. apply nodup_app_l in ND. exact ND.
Qed.

Lemma obj_members_in_order n m o : obj_of addr iter n m false = Ok o -> NoDup (member_names m) ->
  map fst (to_default o) = member_names m /\ numbered (to_default o).
Proof.
  destruct n; [discriminate|]. unfold obj_of. cbn [convert]. destruct (convert addr iter n) as [arr obj]. cbn [snd].
  unfold json_obj_to_rust. intros E ND. apply bind_ok in E as ([r c] & E & E2). apply Ok_inj in E2; subst r.
  destruct (obj_order _ _ _ _ _ _ [] E) as (K & N & _); [|exact ND|exact (conj K N)].
  split; [reflexivity|]. split; [apply numbered_nil|reflexivity].
Qed.

(** definitions inside root members *)
Definition rt_wf (v : rootvalue) : Prop :=
  match v with WParam _ _ => True | WTable d _ _ | WCList d _ | WMList d _ => well_numbered d end.

(** lists that change have a definition *)
Definition is_list (v : rootvalue) : Prop := match v with WMList _ _ => True | _ => False end.
Definition lists_at (d : hmap (Z * rootvalue)) (s : hmap (rootsab mutlist)) : Prop :=
  forall k x, In (k, x) s -> exists i v, In (k, (i, v)) d /\ is_list v.

Lemma into_root_value_wf v : rv_wf v -> good (fun x => rt_wf (fst x) /\ (snd x <> None -> is_list (fst x))) (into_root_value v).
Proof. destruct v; cbn; intuition congruence. Qed.

Lemma lists_at_snoc d s k i v o : lists_at d s -> (o <> None -> is_list v) ->
  lists_at (d ++ [(k, (i, v))]) (match o with Some x => hset k x s | None => s end).
Proof.
  intros H Ho k' x I. assert (L : In (k', x) s \/ k' = k /\ is_list v).
  { destruct o; [|auto]. apply in_hset in I as [[<- _]|I]; [right; split; [reflexivity|apply Ho; discriminate]|auto]. }
  destruct L as [L|[-> L]].
  - destruct (H _ _ L) as (i' & v' & A & B). exists i', v'. split; [apply in_or_app; auto|exact B].
  - exists i, v. split; [apply in_or_app; right; left; reflexivity|exact L].
Qed.

Lemma to_root_hash_from (l : hmap (Z * rvalue)) : forall acc sab r s, NoDup (map fst acc ++ map fst l) ->
  mfold (fun st e => let '(result, sabun) := st in let '(key, (id, value)) := e in
           '(d, v) <- into_root_value value ;
           Ok (hset key (id, d) result, match v with Some v => hset key v sabun | None => sabun end)) l (acc, sab) = Ok (r, s) ->
  map fst r = map fst acc ++ map fst l /\ map (fun e => fst (snd e)) r = map (fun e => fst (snd e)) acc ++ map (fun e => fst (snd e)) l /\
  (forall k i v, In (k, (i, v)) r -> In (k, (i, v)) acc \/ exists w o, In (k, (i, w)) l /\ into_root_value w = Ok (v, o)) /\
  (lists_at acc sab -> lists_at r s).
Proof.
  induction l as [|[k [i v]] l IH]; intros acc sab r s ND E; cbn [mfold] in E.
  - apply Ok_inj, pair_equal_spec in E as [<- <-]. cbn. rewrite !app_nil_r. auto.
  - apply bind_ok in E as ([acc' sab'] & E1 & E2). apply bind_ok in E1 as ([d o] & E1 & E3). apply Ok_inj, pair_equal_spec in E3 as [<- <-].
    cbn [map fst] in ND. pose proof (NoDup_remove_2 _ _ _ ND) as Nk.
    rewrite hset_fresh in E2 by (intros I; apply Nk, in_or_app; auto).
    apply IH in E2.
    + rewrite !map_app, <- !app_assoc in E2. destruct E2 as (A & B & C & D). split; [exact A|]. split; [exact B|]. split.
      2:{ intros H. apply D, lists_at_snoc; [exact H|]. intros Ho. destruct v; cbn in E1; try discriminate E1; apply Ok_inj, pair_equal_spec in E1 as [<- <-]; cbn; first [exact I|congruence]. }
      intros k' i' v' I. apply C in I as [I|(w & o' & I & Ew)].
      * apply in_app_or in I as [I|[I|[]]]; [auto|]. injection I as <- <- <-. right. exists v, o. split; [left; reflexivity|exact E1].
      * right. exists w, o'. split; [right; exact I|exact Ew].
    + rewrite map_app. cbn. rewrite <- app_assoc. exact ND.
Qed.

Lemma to_root_hash_good m : NoDup (map fst m) -> (forall k i v, In (k, (i, v)) m -> rv_wf v) ->
  good (fun _ => True) (to_root_hash iter m).
Proof.
  intros ND Hv. apply (good_mfold (fun _ => True)); [|exact I]. intros [r s] [k [i v]] Ie _. apply iter_in in Ie. eapply good_bind; [apply into_root_value_wf; eauto|].
  intros [d o] _. exact I.
Qed.

Lemma to_root_hash_ok m r s : NoDup (map fst m) -> (forall k i v, In (k, (i, v)) m -> rv_wf v) -> to_root_hash iter m = Ok (r, s) ->
  Permutation (map fst r) (map fst m) /\ (numbered m -> numbered r) /\ (forall k i v, In (k, (i, v)) r -> rt_wf v) /\ lists_at r s.
Proof.
  intros ND Hv E. unfold to_root_hash in E. apply to_root_hash_from in E; [|apply iter_nodup, ND]. cbn in E. destruct E as (A & B & C & D).
  split; [rewrite A; apply iter_keys|]. split; [|split].
  - intros (N1 & N2 & F). split; [rewrite A; apply iter_nodup, N1|]. split.
    + rewrite B. eapply Permutation_NoDup; [apply (Permutation_map (fun e => fst (snd e))), Permutation_sym, It|exact N2].
    + assert (L : zlen r = zlen m).
      { unfold zlen. rewrite <- (map_length fst r), A, map_length, (Permutation_length (It _ m)). reflexivity. }
      rewrite L. apply Forall_forall. intros [k [i v]] I. cbn. apply (in_map (fun e => fst (snd e))) in I. rewrite B in I. cbn in I.
      apply in_map_iff in I as (e & Ee & I). apply iter_in in I. rewrite Forall_forall in F. specialize (F _ I). lia.
  - intros k i v I. apply C in I as [[]|(w & o & I & Ew)]. apply iter_in in I. pose proof (into_root_value_wf w (Hv _ _ _ I)) as G.
    rewrite Ew in G. apply G.
  - apply D. intros k x [].
Qed.

(* ------------------------------------------------------------------ *)
(** * Tables *)

Lemma def_tables_ok n : forall d, well_numbered d -> (def_depth d <= n)%nat -> exists m, def_tables n d = Ok m /\ matches d m.
Proof.
  induction n as [|n IH]; intros [d] W D; [cbn in D; lia|].
  inversion W as [d0 N NR HC HM Ed]. subst d0. cbn [def_tables undef].
  destruct (tables_of_ok (def_tables n) (fun d => well_numbered d /\ (def_depth d <= n)%nat) d) as (m & -> & [T1 T2 _ _]).
  - intros d' [W' D']. destruct (IH d' W' D') as (m & E & _). eauto.
  - split; [exact N|]. split; [exact NR|]. apply Forall_forall. intros [key [id v]] I. cbn. destruct v as [p vt|d'|d' u]; auto.
    split; [eapply HM; exact I|]. cbn [def_depth] in D. apply (list_max_in (fun e => let '(_, (_, v)) := e in
      match v with DParam _ _ => O | DCil d => def_depth d | DMil d _ => def_depth d end)) in I. cbn in I. lia.
  - cbn [bind]. exists (Meta m). split; [reflexivity|]. destruct T1 as [P1 P2 P3].
    assert (In' : forall d' m', (well_numbered d' /\ (def_depth d' <= n)%nat) /\ def_tables n d' = Ok m' -> matches d' m').
    { intros d' m' [[W' D'] E']. destruct (IH d' W' D') as (m'' & E & M). rewrite E' in E. apply Ok_inj in E; subst m''. exact M. }
    constructor.
    + intros key id v Hv NC. destruct v as [p vt|d'|d' u].
      * eexists; split; [apply (P1 _ _ _ _ Hv)|constructor].
      * destruct (NC d' eq_refl).
      * destruct (P2 _ _ _ _ Hv) as (m' & Hm & G). eexists; split; [exact G|]. destruct u; constructor; apply In', Hm.
    + intros id key mv G. apply P3 in G. destruct mv as [pt vt|m'|m'].
      * destruct G as (p & G & ->). eexists; split; [exact G|constructor].
      * destruct G as (d' & G & Hm). eexists; split; [exact G|constructor; apply In', Hm].
      * destruct G as (d' & G & Hm). eexists; split; [exact G|constructor; apply In', Hm].
    + exact T2.
Qed.

Definition root_meta (v : rootval def) : res (option (metaval meta)) :=
  match v with
  | RVParam p vt => Ok (Some (MParam (type_of p) vt))
  | RVMList d u => m <- def_tables (def_depth d) d ; Ok (Some (if u then MOptMil m else MMList m))
  | _ => Ok None
  end.

Lemma hget_perm {A} k (m m' : hmap A) : Permutation m m' -> NoDup (map fst m) -> hget k m = hget k m'.
Proof.
  intros P N. destruct (hget k m) as [a|] eqn:E.
  - symmetry. apply in_hget; [eapply Permutation_NoDup; [apply Permutation_map, P|exact N]|]. eapply Permutation_in; [exact P|apply hget_in, E].
  - symmetry. apply hget_none. apply hget_none in E. intros I. apply E. eapply Permutation_in; [apply Permutation_map, Permutation_sym, P|exact I].
Qed.

Lemma meta_of_ok root : well_numbered_root root -> exists T, meta_of iter root = Ok T /\ matches_root root T.
Proof.
  intros [N W]. unfold meta_of. set (l := iter _ (strip_root root)).
  assert (P : Permutation l (strip_root root)) by apply It.
  assert (Ns : numbered (strip_root root)) by (apply (numbered_map strip root N)).
  assert (Nl : numbered l) by (eapply numbered_perm; [apply Permutation_sym, P|exact Ns]).
  assert (Get : forall key id v, hget key l = Some (id, v) <-> exists w, hget key root = Some (id, w) /\ v = strip w).
  { intros key id v. rewrite (hget_perm key l _ P (proj1 Nl)). unfold strip_root.
    pose proof (hget_map (fun x : Z * rootvalue => (fst x, strip (snd x))) key root) as HM. cbn beta in HM. rewrite HM; clear HM.
    destruct (hget key root) as [[i w]|]; cbn; split; try discriminate.
    - intros H; injection H as <- <-. eauto.
    - intros (w' & E & ->). injection E as <- <-. reflexivity.
    - intros (w' & E & _). discriminate. }
  assert (Hg : forall e, In e l -> exists o, root_meta (snd (snd e)) = Ok o).
  { intros [key [id v]] I. cbn. apply in_hget in I; [|apply Nl]. apply Get in I as (w & Hw & ->). destruct w as [p vt|d it o|d it|d u]; cbn; eauto.
    destruct (def_tables_ok (def_depth d) d) as (m & -> & _); [apply (W _ _ _ (hget_in _ _ _ Hw))|lia|]. cbn. eauto. }
  destruct (build_table root_meta l Nl Hg) as (T & ET & G).
  exists T. split.
  - etransitivity; [|exact ET]. unfold from_root. apply mfold_ext. intros a [key [id v]] _. destruct v; cbn; try reflexivity.
    destruct (def_tables (def_depth d) d); reflexivity.
  - split.
    + intros key id w Hw V. destruct w as [p vt|d it o|d it|d u]; try destruct V.
      * eexists; split; [|constructor]. apply G. exists (RVParam p vt). split; [apply Get; eauto|reflexivity].
      * destruct (def_tables_ok (def_depth d) d) as (m & Em & Mm); [apply (W _ _ _ (hget_in _ _ _ Hw))|lia|].
        exists (if u then MOptMil m else MMList m). split; [|destruct u; constructor; exact Mm]. apply G. exists (RVMList d u). split; [apply Get; eauto|].
        cbn. rewrite Em. reflexivity.
    + intros id key mv Hm. apply G in Hm as (v & Hv & E). apply Get in Hv as (w & Hw & ->). exists w. split; [exact Hw|].
      destruct w as [p vt|d it o|d it|d u]; cbn in E; try discriminate.
      * apply Ok_inj, Some_inj in E; subst mv. constructor.
      * destruct (def_tables_ok (def_depth d) d) as (m & Em & Mm); [apply (W _ _ _ (hget_in _ _ _ Hw))|lia|]. rewrite Em in E. cbn in E.
        apply Ok_inj, Some_inj in E; subst mv. destruct u; constructor; exact Mm.
Qed.

(* ------------------------------------------------------------------ *)
(** * Files *)

Definition ro_wf (r : root_obj) : Prop := well_numbered_root (ro_default r) /\ matches_root (ro_default r) (ro_meta r) /\ lists_at (ro_default r) (ro_sabun r).

Lemma new_root_wf d s o : well_numbered_root d -> lists_at d s -> good (fun r => ro_wf r /\ ro_default r = d /\ ro_sabun r = s) (new_root iter d s o).
Proof. intros W L. unfold new_root. destruct (meta_of_ok d W) as (T & -> & M). cbn. split; [split; [|split]; assumption|auto]. Qed.

Lemma json_root_wf m : NoDup (member_names m) ->
  good (fun r => ro_wf r /\ Permutation (map fst (ro_default r)) (member_names m)) (json_root_to_rust addr iter (JMap m)).
Proof.
  intros ND. unfold json_root_to_rust. pose proof (proj2 (convert_wf (jdepth (JMap m))) m false) as G.
  destruct (obj_of addr iter (jdepth (JMap m)) m false) as [o| |] eqn:E; [| exact I|exfalso; apply G; cbn; fold (dm m); lia].
  cbn [good bind] in *. destruct G as (No & Hv & _); [cbn; fold (dm m); lia|].
  destruct (obj_members_in_order _ _ _ E ND) as [K N].
  unfold into_root_obj. destruct (_ || _); [exact I|]. pose proof (to_root_hash_good _ No Hv) as Gh.
  destruct (to_root_hash iter (to_default o)) as [[d s]| |] eqn:Eh; [|exact I|destruct Gh]. cbn [bind].
  destruct (to_root_hash_ok _ _ _ No Hv Eh) as (P & Nd & Wd & Ls). eapply good_impl; [apply new_root_wf|].
  - split; [apply Nd, N|]. intros key id v I. pose proof (Wd _ _ _ I). destruct v; assumption.
  - exact Ls.
  - intros r (A & B & _). split; [exact A|]. rewrite B, P, K. reflexivity.
Qed.

Lemma insert_by_name_perm {A} (e : name * A) l : Permutation (insert_by_name e l) (e :: l).
Proof.
  induction l as [|x l IH]; cbn; [reflexivity|]. destruct (bytes_lt (fst e) (fst x)); [reflexivity|].
  rewrite IH. apply perm_swap.
Qed.
Lemma sort_perm {A} (l : list (name * A)) : Permutation (sort_by_name l) l.
Proof.
  unfold sort_by_name. rewrite <- (app_nil_r l) at 2. generalize (@nil (name * A)) as acc.
  induction l as [|e l IH]; intros acc; cbn; [reflexivity|]. rewrite IH, insert_by_name_perm. symmetry. apply Permutation_middle.
Qed.

Lemma construct_fold_wf (l : list (name * (rootvalue * option (rootsab mutlist)))) : forall d s,
  NoDup (map fst d ++ map fst l) -> well_numbered_root d -> lists_at d s -> (forall k v o, In (k, (v, o)) l -> rt_wf v /\ (o <> None -> is_list v)) ->
  let '(d', s') := fold_left (fun st e => let '(default, sabun) := st in let '(nm, (value, sab)) := e in
                 (hset nm (zlen default, value) default,
                  match sab with Some sab => hset nm sab sabun | None => sabun end)) l (d, s) in
  well_numbered_root d' /\ lists_at d' s' /\ map fst d' = map fst d ++ map fst l.
Proof.
  induction l as [|[k [v o]] l IH]; intros d s ND W Hs Hl; cbn [fold_left map fst].
  - rewrite app_nil_r. auto.
  - cbn [map fst] in ND. pose proof (NoDup_remove_2 _ _ _ ND) as Nk. rewrite hset_fresh by (intros I; apply Nk, in_or_app; auto).
    specialize (IH (d ++ [(k, (zlen d, v))]) (match o with Some sab => hset k sab s | None => s end)).
    destruct (fold_left _ l _) as [d' s']. rewrite map_app in IH. cbn [map fst] in IH. rewrite <- app_assoc in IH. apply IH.
    + exact ND.
    + destruct W as [N W]. split; [apply numbered_snoc; [exact N|]; intros I; apply Nk, in_or_app; auto|].
      intros key id w I. apply in_app_or in I as [I|[I|[]]]; [apply (W _ _ _ I)|]. injection I as <- <- <-. apply (Hl k v o); left; reflexivity.
    + apply lists_at_snoc; [exact Hs|]. apply (Hl k v o); left; reflexivity.
    + intros; eapply Hl; right; eassumption.
Qed.

Lemma construct_root_wf r vec : ro_wf r -> NoDup (map fst (ro_default r) ++ map fst vec) ->
  (forall k v o, In (k, (v, o)) vec -> rt_wf v /\ (o <> None -> is_list v)) ->
  good (fun r' => ro_wf r' /\ Permutation (map fst (ro_default r')) (map fst (ro_default r) ++ map fst vec)) (construct_root iter r vec).
Proof.
  intros W ND Hv. unfold construct_root.
  pose proof (construct_fold_wf (sort_by_name vec) (ro_default r) (ro_sabun r)) as F.
  destruct (fold_left _ (sort_by_name vec) _) as [d s]. destruct F as (Wd & Ls & K).
  - eapply Permutation_NoDup; [|exact ND]. apply Permutation_app_head, Permutation_map, Permutation_sym, sort_perm.
  - apply W.
  - apply W.
  - intros k v o I. eapply Hv, Permutation_in; [apply sort_perm|exact I].
  - eapply good_impl; [apply new_root_wf; [exact Wd|exact Ls]|]. intros r' (A & B & _). split; [exact A|]. rewrite B, K. apply Permutation_app_head, Permutation_map, sort_perm.
Qed.

Variable parse : list Z -> option jval.

(** one file *)
Lemma file_wf f : NoDup (names_of_file parse f) ->
  good (fun it => match it with
                  | ARoot r => ro_wf r /\ Permutation (map fst (ro_default r)) (names_of_file parse f)
                  | AItem n v o => (rt_wf v /\ (o <> None -> is_list v)) /\ names_of_file parse f = [n]
                  end) (json_file_to_rust addr iter parse (fst f) (snd f)).
Proof.
  destruct f as [path content]. unfold names_of_file, json_file_to_rust, is_root. cbn [fst snd]. intros ND.
  destruct (list_eq_dec Z.eq_dec (file_stem path) (txt "root")) as [E|E].
  - rewrite E, eqb_bytes_refl. destruct (parse content) as [v|]; [|exact I]. cbn [ok_or bind]. destruct v as [| | | | | | |m]; try exact I.
    eapply good_bind; [apply json_root_wf, ND|]. intros r H. exact H.
  - rewrite (eqb_bytes_neq _ _ E). destruct (json_name (file_stem path)) as [[nm vt|]|]; try exact I.
    destruct (parse content) as [v|]; [|exact I]. cbn [ok_or bind]. eapply good_bind; [apply item_str_wf|]. intros rv Hrv.
    eapply good_bind; [apply into_root_value_wf, Hrv|]. intros [w o] Hw. cbn in *. auto.
Qed.

Definition item_names (x : res archiving_item) (names : list name) : Prop :=
  match x with
  | Ok (ARoot r) => ro_wf r /\ Permutation (map fst (ro_default r)) names
  | Ok (AItem n v o) => (rt_wf v /\ (o <> None -> is_list v)) /\ names = [n]
  | Err => True
  | Panic => False
  end.

Lemma take_root_spec l (L : list (list name)) r rest : take_root l = Some (r, rest) -> Forall2 item_names l L ->
  exists names R, ro_wf r /\ Permutation (map fst (ro_default r)) names /\ Forall2 item_names rest R /\ Permutation (concat L) (names ++ concat R).
Proof.
  revert L r rest. induction l as [|x l IH]; intros L r rest; cbn; [discriminate|]. intros E F. inversion F as [|? n ? L' Hx F']; subst.
  assert (Go : (match take_root l with Some (r, others) => Some (r, x :: others) | None => None end) = Some (r, rest) ->
    exists names R, ro_wf r /\ Permutation (map fst (ro_default r)) names /\ Forall2 item_names rest R /\ Permutation (n ++ concat L') (names ++ concat R)).
  { destruct (take_root l) as [[r' others]|] eqn:Et; [|discriminate]. intros H; injection H as -> <-.
    destruct (IH L' r others eq_refl F') as (names & R & A & B & C & D). exists names, (n :: R). split; [exact A|]. split; [exact B|]. split; [constructor; assumption|].
    cbn [concat]. rewrite D. rewrite !app_assoc. apply Permutation_app_tail, Permutation_app_comm. }
  destruct x as [[r0|nm v s]| |]; auto. injection E as -> <-. destruct Hx as [A B]. exists n, L'. repeat split; try assumption; try apply A. reflexivity.
Qed.

Lemma other_items_spec l (L : list (list name)) : Forall2 item_names l L ->
  good (fun vec => map fst vec = concat L /\ forall k v o, In (k, (v, o)) vec -> rt_wf v /\ (o <> None -> is_list v)) (other_items l).
Proof.
  induction 1 as [|x n l L Hx F IH]; cbn; [split; [reflexivity|intros k v o []]|].
  destruct x as [[r|nm v s]| |]; cbn; try exact I; [|destruct Hx].
  eapply good_bind; [exact IH|]. intros vec [A B]. destruct Hx as [Hv ->]. split; [cbn; rewrite A; reflexivity|].
  intros k v' o [E|I]; [|eauto]. injection E as <- <- <-. exact Hv.
Qed.

Lemma concat_map_nodup {A B} (f : A -> list B) l x : NoDup (flat_map f l) -> In x l -> NoDup (f x).
Proof.
  intros N I. apply in_split in I as (a & b & ->). rewrite flat_map_app in N. cbn in N.
  apply nodup_app_r, nodup_app_l in N. exact N.
Qed.

Theorem files_wf files : NoDup (source_names parse files) ->
  good (fun r => ro_wf r /\ Permutation (map fst (ro_default r)) (source_names parse files)) (files_to_root addr iter parse files).
Proof.
  intros ND. unfold files_to_root. set (items := map (fun f => json_file_to_rust addr iter parse (fst f) (snd f)) files).
  assert (F : Forall2 item_names items (map (names_of_file parse) files)).
  { assert (Each : forall f, In f files -> NoDup (names_of_file parse f)) by (intros f; apply concat_map_nodup, ND).
    subst items. clear ND. induction files as [|f files IH]; cbn [map]; constructor.
    - pose proof (file_wf f (Each f (or_introl eq_refl))) as G. destruct (json_file_to_rust addr iter parse (fst f) (snd f)) as [[r|nm v s]| |]; exact G.
    - apply IH. intros; apply Each; right; assumption. }
  replace (existsb is_panic items) with false.
  2:{ clear - F. induction F as [|x n l L Hx F IH]; [reflexivity|]. cbn. rewrite <- IH. destruct x; [reflexivity|reflexivity|destruct Hx]. }
  destruct (existsb (fun x => negb (is_ok x)) items); [exact I|].
  destruct (take_root items) as [[r others]|] eqn:Et; [|exact I]. cbn [ok_or bind].
  destruct (take_root_spec _ _ _ _ Et F) as (names & R & Wr & Pr & Fr & Pc).
  eapply good_bind; [apply other_items_spec, Fr|]. intros vec [K Hv].
  assert (P : Permutation (map fst (ro_default r) ++ map fst vec) (source_names parse files)).
  { rewrite Pr, K. unfold source_names. rewrite flat_map_concat_map. symmetry. exact Pc. }
  eapply good_impl; [apply construct_root_wf|].
  - exact Wr.
  - eapply Permutation_NoDup; [apply Permutation_sym, P|exact ND].
  - exact Hv.
  - intros r' [A B]. split; [exact A|]. rewrite B. exact P.
Qed.
End Conversion.
