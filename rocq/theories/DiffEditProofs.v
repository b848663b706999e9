(** Edits make later versions. *)
From Verif Require Import Base CompactionModel CompactionSpec StringCompactionModel StringCompactionProofs
  LinkedModel LinkedSpec LinkedProofs DocModel DiffModel DiffWireModel DiffSpec DiffEditSpec DiffProofs DiffProofs3 DiffProofs4.

Lemma filter_filter {A} (f g : A -> bool) l : filter f (filter g l) = filter (fun x => g x && f x) l.
Proof. induction l as [|a l IH]; cbn; [reflexivity|]. destruct (g a); cbn; [destruct (f a); rewrite IH; reflexivity|exact IH]. Qed.

Lemma filter_ext_in' {A} (f g : A -> bool) l : (forall x, In x l -> f x = g x) -> filter f l = filter g l.
Proof.
  induction l as [|a l IH]; intros H; [reflexivity|]. cbn. rewrite (H a) by (left; reflexivity).
  rewrite IH by (intros; apply H; right; assumption). reflexivity.
Qed.

Lemma hget_hset {A} key k (v : A) m : hget key (hset k v m) = if eqb_bytes k key then Some v else hget key m.
Proof.
  destruct (eqb_bytes k key) eqn:E; [apply eqb_bytes_eq in E; subst; apply hget_hset_same|].
  apply hget_hset_other. intros ->. rewrite eqb_bytes_refl in E. discriminate.
Qed.

Lemma NoDup_add_mid {A} (x : A) l1 l2 : NoDup (l1 ++ l2) -> ~ In x (l1 ++ l2) -> NoDup (l1 ++ x :: l2).
Proof. intros N I. apply (Permutation_NoDup (Permutation_middle l1 l2 x)). constructor; assumption. Qed.

Section Edit.
Context {L : Type}.
Variable ord : bool.
Variable fresh : L -> Prop.
Variable empty : L -> Prop.
Variable rel : L -> L -> Prop.
Variable step : L -> L -> Prop.
Hypothesis Hempty : forall l, empty l -> fresh l.
Hypothesis Hfresh : forall l l', fresh l -> step l l' -> fresh l'.
Hypothesis Hrel : forall a b c, rel a b -> step b c -> rel a c.

(** what edits keep of a member *)
Definition kept_value (o : option (lval L)) (w : lval L) : Prop :=
  match o, w with
  | Some (LParam _), LParam _ => True
  | Some (LMil (Some a)), LMil (Some b) => rel a b
  | Some (LMil None), LMil (Some b) => fresh b
  | Some (LMil None), LMil None => True
  | Some (LCil t), LCil u => t = u
  | None, LParam _ => True
  | None, LMil (Some b) => fresh b
  | None, LMil None => True
  | _, _ => False
  end.

Definition kept_item (a b : item L) : Prop :=
  (forall key, hget key (it_values a) <> None -> hget key (it_values b) <> None) /\
  (forall key w, hget key (it_values b) = Some w -> kept_value (hget key (it_values a)) w) /\
  (forall key, hget key (it_refs a) <> None -> hget key (it_refs b) <> None).

Lemma edit_fresh (it it' : item L) : no_cil_item fresh it -> edit_item empty step it it' -> no_cil_item fresh it'.
Proof.
  intros F E key v. destruct E as [k p H|k q|k q H|k l H E|k l l' H E]; cbn [it_values]; try apply F;
    rewrite hget_hset; (destruct (eqb_bytes k key) eqn:Ek; [|apply F]); intros Q; injection Q as <-.
  - exact I.
  - apply Hempty, E.
  - eapply Hfresh; [|exact E]. exact (F k _ H).
Qed.

Lemma edit_kept (x it it' : item L) : kept_item x it -> edit_item empty step it it' -> kept_item x it'.
Proof.
  intros (K & V & R) E. destruct E as [k p H|k q|k q H|k l H E|k l l' H E]; (split; [|split]); cbn [it_values it_refs]; try assumption.
  - intros key Hx. rewrite hget_hset. destruct (eqb_bytes k key); [discriminate|]. apply K; exact Hx.
  - intros key w. rewrite hget_hset. destruct (eqb_bytes k key) eqn:Ek; [|apply V]. apply eqb_bytes_eq in Ek; subst key. intros Q; injection Q as <-.
    specialize (V k). specialize (K k). destruct (hget k (it_values it)) as [[| |]|].
    + specialize (V _ eq_refl). destruct (hget k (it_values x)) as [[| |[|]]|]; cbn in *; auto.
    + contradiction.
    + contradiction.
    + destruct (hget k (it_values x)); [|exact I]. destruct K; [discriminate|reflexivity].
  - intros key Hx. rewrite hget_hset. destruct (eqb_bytes k key); [discriminate|]. apply R; exact Hx.
  - intros key Hx. cbn. assert (key = k) by (apply H, R, Hx). subst key. rewrite eqb_bytes_refl. discriminate.
  - intros key Hx. rewrite hget_hset. destruct (eqb_bytes k key); [discriminate|]. apply K; exact Hx.
  - intros key w. rewrite hget_hset. destruct (eqb_bytes k key) eqn:Ek; [|apply V]. apply eqb_bytes_eq in Ek; subst key. intros Q; injection Q as <-.
    specialize (V k). specialize (K k). destruct (hget k (it_values it)) as [[| |[|]]|]; try contradiction.
    + specialize (V _ eq_refl). destruct (hget k (it_values x)) as [[| |[|]]|]; cbn in *; auto; contradiction.
    + destruct (hget k (it_values x)); [|cbn; auto]. destruct K; [discriminate|reflexivity].
  - intros key Hx. rewrite hget_hset. destruct (eqb_bytes k key); [discriminate|]. apply K; exact Hx.
  - intros key w. rewrite hget_hset. destruct (eqb_bytes k key) eqn:Ek; [|apply V]. apply eqb_bytes_eq in Ek; subst key. intros Q; injection Q as <-.
    specialize (V k _ H). destruct (hget k (it_values x)) as [[| |[|]]|]; cbn in *; try contradiction; eauto.
Qed.

(** lists *)
Definition fresh_list (l : mlist (item L)) : Prop :=
  NoDup (ids (fst l)) /\ Forall (fun id => id < snd l) (ids (fst l)) /\ no_cil fresh l.

Definition kept_list (a b : mlist (item L)) : Prop :=
  (ord = true -> filter (fun id => has id (fst b)) (ids (fst a)) = filter (fun id => has id (fst a)) (ids (fst b))) /\
  (forall id y, lookup id (fst b) = Some y ->
     match lookup id (fst a) with Some x => kept_item x y | None => no_cil_item fresh y end) /\
  NoDup (ids (fst b)) /\ Forall (fun id => id < snd b) (ids (fst b)) /\ Forall (fun id => id < snd a) (ids (fst a)) /\ snd a <= snd b.

Lemma has_spec {A} id (l : list (Z * A)) : has id l = true <-> In id (ids l).
Proof.
  unfold has. destruct (lookup id l) eqn:E; split; auto; [|discriminate|].
  - intros _. apply lookup_in' in E. unfold ids. apply in_map_iff. exists (id, a). auto.
  - intros H. apply lookup_none in E. contradiction.
Qed.

Lemma ids_mid' {A} (l1 : list (Z * A)) id it l2 : ids (l1 ++ (id, it) :: l2) = ids l1 ++ id :: ids l2.
Proof. unfold ids. rewrite map_app. reflexivity. Qed.

Lemma lookup_mid' {A} k (l1 : list (Z * A)) id it l2 : NoDup (ids (l1 ++ (id, it) :: l2)) ->
  lookup k (l1 ++ (id, it) :: l2) = if k =? id then Some it else lookup k (l1 ++ l2).
Proof.
  rewrite ids_mid'. intros N. apply NoDup_remove_2 in N. rewrite !lookup_app. cbn [lookup]. rewrite Z.eqb_sym. destruct (Z.eqb_spec id k).
  - subst k. destruct (lookup id l1) eqn:E; [|reflexivity]. exfalso. apply N, in_or_app. left. apply lookup_in' in E. unfold ids. apply in_map_iff. exists (id, a). auto.
  - reflexivity.
Qed.

Lemma fresh_step l l' : fresh_list l -> edit_list ord empty step l l' -> fresh_list l'.
Proof.
  intros (N & F & C) E. destruct E as [l1 l2 nx|l1 l2 id it nx|l1 l2 id it it' nx E|l l' nx Ho P]; unfold fresh_list in *; cbn [fst snd] in *.
  - assert (N' : NoDup (ids (l1 ++ (nx, Item [] []) :: l2))).
    { rewrite ids_mid'. apply NoDup_add_mid; [rewrite <- ids_app; exact N|]. rewrite <- ids_app. intros I. rewrite Forall_forall in F. specialize (F _ I). lia. }
    split; [exact N'|]. split.
    + rewrite ids_mid'. rewrite ids_app in F. apply Forall_app in F as [F1 F2]. apply Forall_app; split; [eapply Forall_impl; [|exact F1]; cbn; lia|].
      constructor; [lia|]. eapply Forall_impl; [|exact F2]; cbn; lia.
    + intros k y. cbn [fst]. rewrite (lookup_mid' k _ _ _ _ N'). destruct (k =? nx); [|apply C]. intros Q; injection Q as <-. intros key v; discriminate.
  - pose proof N as N'. rewrite ids_mid' in N', F. split; [rewrite ids_app; eapply NoDup_remove_1; exact N'|]. split.
    + rewrite ids_app. apply Forall_app in F as [F1 F2]. inversion_clear F2. apply Forall_app; auto.
    + intros k y. cbn [fst]. intros H. apply (C k). cbn [fst]. rewrite (lookup_mid' k _ _ _ _ N). destruct (Z.eqb_spec k id); [|exact H].
      subst k. exfalso. apply NoDup_remove_2 in N'. apply N'. rewrite <- ids_app. apply lookup_in' in H. unfold ids. apply in_map_iff. exists (id, y). auto.
  - assert (Ei : ids (l1 ++ (id, it') :: l2) = ids (l1 ++ (id, it) :: l2)) by (rewrite !ids_mid'; reflexivity).
    rewrite Ei. split; [exact N|]. split; [exact F|]. intros k y. cbn [fst].
    assert (C0 : no_cil_item fresh it) by (apply (C id); cbn [fst]; rewrite (lookup_mid' id _ _ _ _ N), Z.eqb_refl; reflexivity).
    specialize (C k). cbn [fst] in C. rewrite (lookup_mid' k _ _ _ _ N) in C. rewrite lookup_mid' by (rewrite Ei; exact N).
    destruct (k =? id); [|apply C]. intros Q; injection Q as <-. eapply edit_fresh; eassumption.
  - assert (Pi : Permutation (ids l) (ids l')) by (apply Permutation_map; exact P).
    assert (N' : NoDup (ids l')) by (eapply Permutation_NoDup; eassumption).
    split; [exact N'|]. split; [eapply Permutation_Forall; eassumption|]. intros k y. cbn [fst]. intros H. apply (C k). cbn [fst].
    apply in_lookup; [exact N|]. apply (Permutation_in _ (Permutation_sym P)). apply lookup_in'; exact H.
Qed.

Lemma kept_step a l l' : kept_list a l -> edit_list ord empty step l l' -> kept_list a l'.
Proof.
  intros (O & K & N & F & Fa & Le) E. destruct E as [l1 l2 nx|l1 l2 id it nx|l1 l2 id it it' nx E|l l' nx Ho P]; unfold kept_list in *; cbn [fst snd] in *.
  - assert (Nx : ~ In nx (ids (l1 ++ l2))) by (intros I; rewrite Forall_forall in F; specialize (F _ I); lia).
    assert (Na : ~ In nx (ids (fst a))) by (intros I; rewrite Forall_forall in Fa; specialize (Fa _ I); lia).
    assert (N' : NoDup (ids (l1 ++ (nx, Item [] []) :: l2))).
    { rewrite ids_mid'. apply NoDup_add_mid; [rewrite <- ids_app; exact N|]. rewrite <- ids_app. exact Nx. }
    split; [|split; [|split; [exact N'|split; [|split; [exact Fa|lia]]]]].
    + intros Ho. specialize (O Ho). rewrite ids_mid', filter_app. cbn [filter].
      assert (has nx (fst a) = false) as -> by (destruct (has nx (fst a)) eqn:Hh; [|reflexivity]; apply has_spec in Hh; contradiction).
      rewrite <- filter_app, <- ids_app, <- O. apply filter_ext_in'. intros x I. unfold has. rewrite (lookup_mid' x _ _ _ _ N').
      destruct (Z.eqb_spec x nx); [subst; contradiction|reflexivity].
    + intros k y. rewrite (lookup_mid' k _ _ _ _ N'). destruct (Z.eqb_spec k nx); [|apply K]. subst k. intros Q; injection Q as <-.
      apply lookup_none in Na. rewrite Na. intros key v; discriminate.
    + rewrite ids_mid'. rewrite ids_app in F. apply Forall_app in F as [F1 F2]. apply Forall_app; split; [eapply Forall_impl; [|exact F1]; cbn; lia|].
      constructor; [lia|]. eapply Forall_impl; [|exact F2]; cbn; lia.
  - pose proof N as N'. rewrite ids_mid' in N', F.
    assert (Ni : lookup id (l1 ++ l2) = None) by (apply lookup_none; rewrite ids_app; apply NoDup_remove_2 in N'; exact N').
    split; [|split; [|split; [|split; [|split; [exact Fa|lia]]]]].
    + intros Ho. specialize (O Ho).
      assert (Hf : forall x, has x (l1 ++ l2) = has x (l1 ++ (id, it) :: l2) && negb (x =? id)).
      { intros x. unfold has. rewrite (lookup_mid' x _ _ _ _ N). destruct (Z.eqb_spec x id); [subst; rewrite Ni; reflexivity|]. cbn. rewrite andb_true_r. reflexivity. }
      rewrite (filter_ext_in' _ _ _ (fun x _ => Hf x)), <- filter_filter, O, filter_filter, ids_mid', ids_app, !filter_app. cbn [filter].
      rewrite Z.eqb_refl. cbn [negb]. rewrite andb_false_r. apply NoDup_remove_2 in N'.
      assert (D : forall x, In x (ids l1 ++ ids l2) -> has x (fst a) && negb (x =? id) = has x (fst a)).
      { intros x I. destruct (Z.eqb_spec x id); [subst; contradiction|]. apply andb_true_r. }
      f_equal; apply filter_ext_in'; intros x I; apply D; apply in_or_app; auto.
    + intros k y H. apply K. rewrite (lookup_mid' k _ _ _ _ N). destruct (Z.eqb_spec k id); [subst; congruence|exact H].
    + rewrite ids_app. eapply NoDup_remove_1; exact N'.
    + rewrite ids_app. apply Forall_app in F as [F1 F2]. inversion_clear F2. apply Forall_app; auto.
  - assert (Ei : ids (l1 ++ (id, it') :: l2) = ids (l1 ++ (id, it) :: l2)) by (rewrite !ids_mid'; reflexivity).
    assert (N' : NoDup (ids (l1 ++ (id, it') :: l2))) by (rewrite Ei; exact N).
    rewrite Ei. split; [|split; [|auto]].
    + intros Ho. rewrite <- (O Ho). apply filter_ext_in'. intros x _. unfold has. rewrite (lookup_mid' x _ _ _ _ N), (lookup_mid' x _ _ _ _ N'). destruct (x =? id); reflexivity.
    + intros k y. rewrite (lookup_mid' k _ _ _ _ N'). pose proof (K k) as Kk. rewrite (lookup_mid' k _ _ _ _ N) in Kk. destruct (k =? id); [|apply Kk].
      intros Q; injection Q as <-. specialize (Kk _ eq_refl). destruct (lookup k (fst a)); [eapply edit_kept|eapply edit_fresh]; eassumption.
  - assert (Pi : Permutation (ids l) (ids l')) by (apply Permutation_map; exact P).
    assert (N' : NoDup (ids l')) by (eapply Permutation_NoDup; eassumption).
    split; [intros H; congruence|]. split; [|split; [exact N'|split; [eapply Permutation_Forall; eassumption|auto]]].
    intros k y H. apply K. apply in_lookup; [exact N|]. apply (Permutation_in _ (Permutation_sym P)). apply lookup_in'; exact H.
Qed.

Lemma kept_refl (cnt : L -> Prop) l : (forall l, cnt l -> rel l l) -> counted_list cnt l -> kept_list l l.
Proof.
  intros Hc (N & F & C). split; [reflexivity|]. split; [|split; [exact N|split; [exact F|split; [exact F|lia]]]].
  intros id y H. rewrite H. split; [auto|]. split; [|auto]. intros key w Hw. rewrite Hw. destruct w as [p|t|[x|]]; cbn; auto.
  apply Hc. exact (C id y H key x Hw).
Qed.

Lemma kept_later (fr : L -> Prop) (rl : L -> L -> Prop) a b : (forall l, fresh l -> fr l) -> (forall a b, rel a b -> rl a b) -> kept_list a b -> later_list ord fr rl a b.
Proof.
  intros Hf Hr (O & K & _). split; [exact O|]. intros id y H. specialize (K id y H). destruct (lookup id (fst a)).
  - destruct K as (K1 & K2 & K3). split; [exact K1|]. split; [|exact K3]. intros key w Hw. specialize (K2 key w Hw).
    destruct (hget key (it_values i)) as [[| |[|]]|], w as [| |[|]]; cbn in *; auto; contradiction.
  - intros key v Hv. specialize (K key v Hv). destruct v as [| |[|]]; auto.
Qed.
End Edit.

Fixpoint freshlT (n : nat) : mlistT n -> Prop :=
  match n with O => fun _ => True | S n => fresh_list (freshlT n) end.
Fixpoint keptT (ord : bool) (n : nat) : mlistT n -> mlistT n -> Prop :=
  match n with O => fun _ _ => True | S n => kept_list ord (freshlT n) (keptT ord n) end.

Lemma empty_fresh n l : empty_listT n l -> freshlT n l.
Proof.
  destruct n as [|n]; [intros []|]. cbn [empty_listT freshlT]. intros ->. split; [constructor|]. split; [constructor|]. intros id it; discriminate.
Qed.

Lemma freshlT_step ord n : forall l l', freshlT n l -> editT ord n l l' -> freshlT n l'.
Proof.
  induction n as [|n IH]; intros l l'; [intros _ []|]. cbn [freshlT editT]. apply fresh_step; [apply empty_fresh|exact IH].
Qed.
Lemma keptT_step ord n : forall a l l', keptT ord n a l -> editT ord n l l' -> keptT ord n a l'.
Proof.
  induction n as [|n IH]; intros a l l'; [intros _ []|]. cbn [keptT editT]. apply kept_step; [apply empty_fresh|apply freshlT_step|exact IH].
Qed.
Lemma keptT_refl ord n : forall l, countedT n l -> keptT ord n l l.
Proof. induction n as [|n IH]; intros l; cbn [countedT keptT]; [auto|]. apply kept_refl. exact IH. Qed.
Lemma freshlT_no_cil n : forall l, freshlT n l -> no_cilT n l.
Proof.
  induction n as [|n IH]; intros l; cbn [freshlT no_cilT]; [auto|]. intros (_ & _ & C) id it H key v Hv. specialize (C id it H key v Hv).
  destruct v as [| |[|]]; auto.
Qed.
Lemma keptT_later ord n : forall a b, keptT ord n a b -> laterT ord n a b.
Proof. induction n as [|n IH]; intros a b; cbn [keptT laterT]; [auto|]. apply kept_later; [apply freshlT_no_cil|exact IH]. Qed.

(** ** Documents *)

Definition kept_root ord {n} (a b : sabun n) : Prop :=
  (forall key, hget key a <> None -> hget key b <> None) /\
  (forall key w, hget key b = Some w ->
     match hget key a, w with
     | Some (RParam _), RParam _ => True
     | Some (RMut (Some x)), RMut (Some y) => keptT ord n x y
     | Some (RMut None), RMut None => True
     | None, RParam _ => True
     | _, _ => False
     end).

Lemma kept_root_step ord {n} (a b c : sabun n) : kept_root ord a b -> edit_root ord b c -> kept_root ord a c.
Proof.
  intros (K & V) E. destruct E as [k p H|k l l' H E]; split.
  - intros key Hx. rewrite hget_hset. destruct (eqb_bytes k key); [discriminate|]. apply K; exact Hx.
  - intros key w. rewrite hget_hset. destruct (eqb_bytes k key) eqn:Ek; [|apply V]. apply eqb_bytes_eq in Ek; subst key. intros Q; injection Q as <-.
    specialize (V k). specialize (K k). destruct (hget k b) as [[q|o]|]; [|contradiction|].
    + specialize (V _ eq_refl). destruct (hget k a) as [[|[|]]|]; auto.
    + destruct (hget k a); [|exact I]. destruct K; [discriminate|reflexivity].
  - intros key Hx. rewrite hget_hset. destruct (eqb_bytes k key); [discriminate|]. apply K; exact Hx.
  - intros key w. rewrite hget_hset. destruct (eqb_bytes k key) eqn:Ek; [|apply V]. apply eqb_bytes_eq in Ek; subst key. intros Q; injection Q as <-.
    specialize (V k _ H). destruct (hget k a) as [[|[|]]|]; try contradiction. eapply keptT_step; eassumption.
Qed.

Lemma kept_root_refl ord {n} (a : sabun n) : counted_root a -> kept_root ord a a.
Proof.
  intros C. split; [auto|]. intros key w H. rewrite H. destruct w as [p|[l|]]; auto. apply keptT_refl. eapply C; exact H.
Qed.

Lemma edits_later mem ord {n} (def : rootdef n) f t : counted_root f -> typed_root mem f def -> typed_root mem t def ->
  (forall key id d, hget key def <> Some (id, RVMList d true)) ->
  reached (edit_root ord) f t -> later_root ord def f t.
Proof.
  intros C TyF TyT ND R. assert (K : kept_root ord f t).
  { clear TyT. induction R as [|b c R IH S]; [apply kept_root_refl; exact C|]. eapply kept_root_step; eassumption. }
  destruct K as (K & V). split; [exact K|]. split.
  - intros key w H. specialize (V key w H). destruct (hget key f) as [[|[|]]|], w as [|[|]]; auto; try contradiction. apply keptT_later; exact V.
  - intros key id d w H. destruct (ND key id d H).
Qed.
