(** A relation between versions of a document that is transitive: what edits lead to. *)
From Verif Require Import Base CompactionModel CompactionSpec StringCompactionModel StringCompactionProofs
  LinkedModel LinkedSpec LinkedProofs DocModel DiffModel DiffWireModel DiffSpec DiffEditSpec DiffProofs DiffProofs2 DiffProofs3 DiffProofs4 DiffEditProofs.

(* ------------------------------------------------------------------ *)
(** * The same *)

Lemma same_opt_sym {A} (R : A -> A -> Prop) x y : (forall a b, R a b -> R b a) -> same_opt R x y -> same_opt R y x.
Proof. destruct x, y; cbn; auto. Qed.

Section Sym.
Context {L : Type}.
Variable inner : L -> L -> Prop.
Hypothesis Hs : forall a b, inner a b -> inner b a.
Lemma same_value_sym v w : same_value inner v w -> same_value inner w v.
Proof. destruct v as [|?|[]], w as [|?|[]]; cbn; auto using same_param_sym. Qed.
Lemma same_item_sym a b : same_item inner a b -> same_item inner b a.
Proof. intros (V & R). split; [|auto]. intros key. apply same_opt_sym; [apply same_value_sym|apply V]. Qed.
Lemma same_list_sym ord nx a b : same_list ord nx inner a b -> same_list ord nx inner b a.
Proof.
  intros (O & I & X). split; [destruct ord; [auto|apply Permutation_sym; exact O]|]. split; [|intros H; symmetry; auto].
  intros id. apply same_opt_sym; [apply same_item_sym|apply I].
Qed.
End Sym.
Lemma sameT_sym ord nx n : forall a b, sameT ord nx n a b -> sameT ord nx n b a.
Proof. induction n as [|n IH]; intros a b; cbn [sameT]; [auto|]. apply same_list_sym. exact IH. Qed.

Lemma same_root_refl ord nx {n} (a : sabun n) : same_root ord nx a a.
Proof. intros key. apply same_opt_refl. intros [p|o]; cbn; [apply same_param_refl|]. apply same_opt_refl. apply sameT_refl. Qed.
Lemma same_root_sym ord nx {n} (a b : sabun n) : same_root ord nx a b -> same_root ord nx b a.
Proof.
  intros H key. apply same_opt_sym; [|apply H]. intros [p|o] [q|o']; cbn; auto using same_param_sym. apply same_opt_sym. apply sameT_sym.
Qed.
Lemma same_root_trans ord nx {n} (a b c : sabun n) : same_root ord nx a b -> same_root ord nx b c -> same_root ord nx a c.
Proof.
  intros H K key. eapply same_opt_trans; [|apply H|apply K]. intros [p|o] [q|o'] [r|o'']; cbn; try tauto; [apply same_param_trans|].
  apply same_opt_trans. apply sameT_trans.
Qed.
Lemma same_root_weaken ord nx {n} (a b : sabun n) : same_root ord nx a b -> same_root ord false a b.
Proof.
  intros H key. specialize (H key). destruct (hget key a) as [[|[|]]|], (hget key b) as [[|[|]]|]; cbn in *; auto. eapply sameT_weaken; exact H.
Qed.

(* ------------------------------------------------------------------ *)
(** * Growing *)

Section Grown.
Context {L : Type}.
Variable fresh : L -> Prop.
Variable rel : L -> L -> Prop.

(** what edits keep, and the ids of new items *)
Definition grown_list (a b : mlist (item L)) : Prop :=
  kept_list true fresh rel a b /\ forall id, In id (ids (fst b)) -> ~ In id (ids (fst a)) -> snd a <= id.

Lemma grown_step (empty : L -> Prop) (step : L -> L -> Prop) : (forall l, empty l -> fresh l) ->
  (forall l l', fresh l -> step l l' -> fresh l') -> (forall a b c, rel a b -> step b c -> rel a c) ->
  forall a l l', grown_list a l -> edit_list true empty step l l' -> grown_list a l'.
Proof.
  intros He Hf Hr a l l' (K & G) E. split; [eapply kept_step; eassumption|].
  destruct K as (_ & _ & _ & _ & _ & Le). destruct E as [l1 l2 nx|l1 l2 id it nx|l1 l2 id it it' nx E|l l' nx Ho P]; cbn [fst snd] in *.
  - intros id I J. rewrite ids_mid' in I. apply in_app_or in I as [I|[<-|I]]; [|lia|]; apply G; try exact J; rewrite ids_app; apply in_or_app; auto.
  - intros k I J. apply G; [|exact J]. rewrite ids_mid'. rewrite ids_app in I. apply in_app_or in I as [I|I]; apply in_or_app; [left|right; right]; exact I.
  - intros k I J. apply G; [|exact J]. rewrite ids_mid' in *. exact I.
  - discriminate.
Qed.

Lemma grown_refl (cnt : L -> Prop) l : (forall l, cnt l -> rel l l) -> counted_list cnt l -> grown_list l l.
Proof. intros H C. split; [eapply kept_refl; eassumption|]. intros id I J. contradiction. Qed.

Hypothesis Hfresh : forall a b, fresh a -> rel a b -> fresh b.
Hypothesis Htrans : forall a b c, rel a b -> rel b c -> rel a c.

Lemma kept_fresh_item x y : no_cil_item fresh x -> kept_item fresh rel x y -> no_cil_item fresh y.
Proof.
  intros C (_ & V & _) key v Hv. specialize (V key v Hv). specialize (C key). destruct (hget key (it_values x)) as [u|].
  - specialize (C u eq_refl). destruct u as [|?|[]], v as [|?|[]]; cbn in *; try contradiction; auto. eapply Hfresh; eassumption.
  - destruct v as [|?|[]]; cbn in *; auto.
Qed.

Lemma kept_trans_item x y z : kept_item fresh rel x y -> kept_item fresh rel y z -> kept_item fresh rel x z.
Proof.
  intros (K1 & V1 & R1) (K2 & V2 & R2). split; [auto|]. split; [|auto]. intros key w Hw. specialize (V2 key w Hw). specialize (V1 key). specialize (K1 key).
  destruct (hget key (it_values y)) as [v|].
  - specialize (V1 v eq_refl). destruct (hget key (it_values x)) as [[|?|[]]|], v as [|?|[]], w as [|?|[]]; cbn in *; try contradiction; auto; try congruence; eauto.
  - destruct (hget key (it_values x)); [destruct K1; [discriminate|reflexivity]|exact V2].
Qed.

Lemma grown_fresh a b : fresh_list fresh a -> grown_list a b -> fresh_list fresh b.
Proof.
  intros (N & F & C) ((_ & K & N' & F' & _) & _). split; [exact N'|]. split; [exact F'|]. intros id y H. specialize (K id y H).
  destruct (lookup id (fst a)) as [x|] eqn:E; [|exact K]. eapply kept_fresh_item; [|exact K]. eapply C; exact E.
Qed.

Lemma grown_trans a b c : grown_list a b -> grown_list b c -> grown_list a c.
Proof.
  intros ((O1 & K1 & N1 & F1 & Fa & L1) & G1) ((O2 & K2 & N2 & F2 & _ & L2) & G2).
  rewrite Forall_forall in Fa. assert (S : forall id, In id (ids (fst a)) -> In id (ids (fst c)) -> In id (ids (fst b))).
  { intros id Ia Ic. destruct (in_dec Z.eq_dec id (ids (fst b))) as [I|I]; [exact I|]. specialize (G2 _ Ic I). specialize (Fa _ Ia). cbn beta in Fa. lia. }
  split; [|intros id Ic Ia; destruct (in_dec Z.eq_dec id (ids (fst b))) as [I|I]; [exact (G1 _ I Ia)|specialize (G2 _ Ic I); lia]].
  split; [|split; [|split; [exact N2|split; [exact F2|split; [apply Forall_forall; exact Fa|lia]]]]].
  - intros H. specialize (O1 H). specialize (O2 H).
    transitivity (filter (fun id => has id (fst c)) (filter (fun id => has id (fst b)) (ids (fst a)))).
    { rewrite DiffEditProofs.filter_filter. apply filter_ext_in'. intros id I. destruct (has id (fst c)) eqn:E; [|rewrite andb_false_r; reflexivity].
      apply has_spec in E. symmetry. rewrite andb_true_r. apply has_spec. apply S; assumption. }
    rewrite O1. rewrite DiffEditProofs.filter_filter. rewrite (filter_ext_in' _ (fun x => has x (fst c) && has x (fst a))) by (intros; apply andb_comm).
    rewrite <- DiffEditProofs.filter_filter, O2, DiffEditProofs.filter_filter. apply filter_ext_in'. intros id I.
    destruct (has id (fst a)) eqn:E; [|apply andb_false_r]. rewrite andb_true_r. apply has_spec. apply has_spec in E. apply S; assumption.
  - intros id z H. specialize (K2 id z H). assert (Ic : In id (ids (fst c))) by (apply lookup_in' in H; unfold ids; apply in_map_iff; exists (id, z); auto).
    destruct (lookup id (fst a)) as [x|] eqn:Ea.
    + assert (Ia : In id (ids (fst a))) by (apply lookup_in' in Ea; unfold ids; apply in_map_iff; exists (id, x); auto).
      destruct (lookup id (fst b)) as [y|] eqn:Eb; [|apply lookup_none in Eb; destruct Eb; apply S; assumption].
      specialize (K1 id y Eb). rewrite Ea in K1. eapply kept_trans_item; eassumption.
    + destruct (lookup id (fst b)) as [y|] eqn:Eb; [|exact K2]. specialize (K1 id y Eb). rewrite Ea in K1. eapply kept_fresh_item; eassumption.
Qed.

(** the same documents *)
Variable same : L -> L -> Prop.
Hypothesis Hsym : forall a b, same a b -> same b a.
Hypothesis Sfresh : forall a b, fresh a -> same a b -> fresh b.
Hypothesis Srel : forall a a' b b', same a a' -> same b b' -> rel a b -> rel a' b'.

Lemma same_fresh_item x x' : no_cil_item fresh x -> same_item same x x' -> no_cil_item fresh x'.
Proof.
  intros C (V & _) key v Hv. specialize (V key). rewrite Hv in V. specialize (C key). destruct (hget key (it_values x)) as [u|]; [|contradiction].
  specialize (C u eq_refl). destruct u as [|?|[]], v as [|?|[]]; cbn in *; try contradiction; auto. eapply Sfresh; eassumption.
Qed.
Lemma same_fresh_list l l' : fresh_list fresh l -> same_list true true same l l' -> fresh_list fresh l'.
Proof.
  intros (N & F & C) (O & I & X). rewrite (X eq_refl) in F. rewrite O in N, F. split; [exact N|]. split; [exact F|].
  intros id y H. specialize (I id). rewrite H in I. destruct (lookup id (fst l)) as [x|] eqn:E; [|contradiction]. eapply same_fresh_item; [|exact I]. eapply C; exact E.
Qed.

Lemma same_kept_item x x' y y' : same_item same x x' -> same_item same y y' -> kept_item fresh rel x y -> kept_item fresh rel x' y'.
Proof.
  intros (Vx & Rx) (Vy & Ry) (K & V & R).
  assert (Vx' := fun key => Vx key). assert (Vy' := fun key => Vy key). split; [|split].
  - intros key Hx. specialize (K key). specialize (Vx key). specialize (Vy key).
    destruct (hget key (it_values x)), (hget key (it_values x')); try contradiction; try (destruct Hx; reflexivity).
    destruct (hget key (it_values y)); [|destruct K; [discriminate|reflexivity]]. destruct (hget key (it_values y')); [discriminate|contradiction].
  - intros key w' Hw'. specialize (Vy key). rewrite Hw' in Vy. destruct (hget key (it_values y)) as [w|] eqn:Hw; [|contradiction]. specialize (V key w Hw). specialize (Vx key).
    destruct (hget key (it_values x)) as [[|?|[]]|], (hget key (it_values x')) as [[|?|[]]|], w as [|?|[]], w' as [|?|[]]; cbn in *; try contradiction; auto; try congruence; eauto.
  - intros key. rewrite <- Rx, <- Ry. apply R.
Qed.

Lemma same_grown a a' b b' : same_list true true same a a' -> same_list true true same b b' -> grown_list a b -> grown_list a' b'.
Proof.
  intros (Oa & Ia & Xa) (Ob & Ib & Xb) ((O & K & N & F & Fa & Le) & G). specialize (Xa eq_refl). specialize (Xb eq_refl).
  assert (Ha : forall id, has id (fst a') = has id (fst a)).
  { intros id. rewrite !has_lookup. specialize (Ia id). destruct (lookup id (fst a)), (lookup id (fst a')); try contradiction; reflexivity. }
  assert (Hb : forall id, has id (fst b') = has id (fst b)).
  { intros id. rewrite !has_lookup. specialize (Ib id). destruct (lookup id (fst b)), (lookup id (fst b')); try contradiction; reflexivity. }
  unfold grown_list, kept_list. rewrite <- Oa, <- Ob, <- Xa, <- Xb. split; [|exact G]. split; [|split; [|auto]].
  - intros H. specialize (O H). rewrite (filter_ext_in' _ _ _ (fun x _ => Hb x)), (filter_ext_in' _ _ _ (fun x _ => Ha x)). exact O.
  - intros id y' H. specialize (Ib id). rewrite H in Ib. destruct (lookup id (fst b)) as [y|] eqn:E; [|contradiction]. specialize (K id y E). specialize (Ia id).
    destruct (lookup id (fst a)) as [x|], (lookup id (fst a')) as [x'|]; try contradiction; [eapply same_kept_item; eassumption|eapply same_fresh_item; eassumption].
Qed.
End Grown.

Fixpoint grownT (n : nat) : mlistT n -> mlistT n -> Prop :=
  match n with O => fun _ _ => True | S n => grown_list (freshlT n) (grownT n) end.

Lemma grownT_fresh n : forall a b, freshlT n a -> grownT n a b -> freshlT n b.
Proof. induction n as [|n IH]; intros a b; cbn [freshlT grownT]; [auto|]. apply grown_fresh. exact IH. Qed.
Lemma grownT_step n : forall a l l', grownT n a l -> editT true n l l' -> grownT n a l'.
Proof.
  induction n as [|n IH]; intros a l l'; [intros _ []|]. cbn [grownT editT]. apply grown_step; [apply empty_fresh|apply freshlT_step|exact IH].
Qed.
Lemma grownT_refl n : forall l, countedT n l -> grownT n l l.
Proof. induction n as [|n IH]; intros l; cbn [countedT grownT]; [auto|]. apply grown_refl. exact IH. Qed.
Lemma grownT_trans n : forall a b c, grownT n a b -> grownT n b c -> grownT n a c.
Proof. induction n as [|n IH]; intros a b c; cbn [grownT]; [auto|]. apply grown_trans; [apply grownT_fresh|exact IH]. Qed.
Lemma grownT_later n : forall a b, grownT n a b -> laterT true n a b.
Proof. induction n as [|n IH]; intros a b; cbn [grownT laterT]; [auto|]. intros (K & _). revert K. apply kept_later; [apply freshlT_no_cil|exact IH]. Qed.
Lemma freshlT_same n : forall a b, freshlT n a -> sameT true true n a b -> freshlT n b.
Proof. induction n as [|n IH]; intros a b; cbn [freshlT sameT]; [auto|]. apply same_fresh_list. exact IH. Qed.
Lemma grownT_same n : forall a a' b b', sameT true true n a a' -> sameT true true n b b' -> grownT n a b -> grownT n a' b'.
Proof. induction n as [|n IH]; intros a a' b b'; cbn [grownT sameT]; [auto|]. apply same_grown; [apply freshlT_same|exact IH]. Qed.

Definition grown {n} (a b : sabun n) : Prop :=
  (forall key, hget key a <> None -> hget key b <> None) /\
  (forall key w, hget key b = Some w ->
     match hget key a, w with
     | Some (RParam _), RParam _ => True
     | Some (RMut (Some x)), RMut (Some y) => grownT n x y
     | Some (RMut None), RMut None => True
     | None, RParam _ => True
     | _, _ => False
     end).

Lemma grown_root_step {n} (a b c : sabun n) : grown a b -> edit_root true b c -> grown a c.
Proof.
  intros (K & V) E. destruct E as [k p H|k l l' H E]; split.
  - intros key Hx. rewrite hget_hset. destruct (eqb_bytes k key); [discriminate|]. apply K; exact Hx.
  - intros key w. rewrite hget_hset. destruct (eqb_bytes k key) eqn:Ek; [|apply V]. apply eqb_bytes_eq in Ek; subst key. intros Q; injection Q as <-.
    specialize (V k). specialize (K k). destruct (hget k b) as [[q|o]|]; [|contradiction|].
    + specialize (V _ eq_refl). destruct (hget k a) as [[|[|]]|]; auto.
    + destruct (hget k a); [|exact I]. destruct K; [discriminate|reflexivity].
  - intros key Hx. rewrite hget_hset. destruct (eqb_bytes k key); [discriminate|]. apply K; exact Hx.
  - intros key w. rewrite hget_hset. destruct (eqb_bytes k key) eqn:Ek; [|apply V]. apply eqb_bytes_eq in Ek; subst key. intros Q; injection Q as <-.
    specialize (V k _ H). destruct (hget k a) as [[|[|]]|]; try contradiction. eapply grownT_step; eassumption.
Qed.

Lemma grown_root_refl {n} (a : sabun n) : counted_root a -> grown a a.
Proof. intros C. split; [auto|]. intros key w H. rewrite H. destruct w as [p|[l|]]; auto. apply grownT_refl. eapply C; exact H. Qed.

Lemma grown_root_trans {n} (a b c : sabun n) : grown a b -> grown b c -> grown a c.
Proof.
  intros (K1 & V1) (K2 & V2). split; [auto|]. intros key w Hw. specialize (V2 key w Hw). specialize (V1 key). specialize (K1 key).
  destruct (hget key b) as [v|].
  - specialize (V1 v eq_refl). destruct (hget key a) as [[|[]]|], v as [|[]], w as [|[]]; try contradiction; auto. eapply grownT_trans; eassumption.
  - destruct (hget key a); [destruct K1; [discriminate|reflexivity]|exact V2].
Qed.

Lemma grown_root_same {n} (a a' b b' : sabun n) : same_root true true a a' -> same_root true true b b' -> grown a b -> grown a' b'.
Proof.
  intros Sa Sb (K & V). split.
  - intros key Hx. specialize (K key). specialize (Sa key). specialize (Sb key). destruct (hget key a), (hget key a'); try contradiction; try (destruct Hx; reflexivity).
    destruct (hget key b); [|destruct K; [discriminate|reflexivity]]. destruct (hget key b'); [discriminate|contradiction].
  - intros key w' Hw'. specialize (Sb key). rewrite Hw' in Sb. destruct (hget key b) as [w|] eqn:Hw; [|contradiction]. specialize (V key w Hw). specialize (Sa key).
    destruct (hget key a) as [[|[]]|], (hget key a') as [[|[]]|], w as [|[]], w' as [|[]]; cbn in *; try contradiction; auto. eapply grownT_same; eassumption.
Qed.

Lemma grown_later {n} (def : rootdef n) (a b : sabun n) : (forall key id d, hget key def <> Some (id, RVMList d true)) ->
  grown a b -> later_root true def a b.
Proof.
  intros Un (K & V). split; [exact K|]. split; [|intros key id d w H; destruct (Un key id d H)].
  intros key w Hw. specialize (V key w Hw). destruct (hget key a) as [[|[]]|], w as [|[]]; try contradiction; auto. apply grownT_later; exact V.
Qed.

Lemma reached_grown {n} (a b c : sabun n) : grown a b -> reached (edit_root true) b c -> grown a c.
Proof. intros G R. induction R as [|x y R IH S]; [exact G|]. eapply grown_root_step; eassumption. Qed.

(* ------------------------------------------------------------------ *)
(** * Counted documents, next ids *)

Section Counted.
Context {L : Type}.
Variable cnt : L -> Prop.
Variable same : L -> L -> Prop.
Hypothesis Hs : forall a b, cnt a -> same a b -> cnt b.
Lemma counted_same_list a b : counted_list cnt a -> same_list true true same a b -> counted_list cnt b.
Proof.
  intros (N & F & C) (O & I & X). rewrite (X eq_refl) in F. rewrite O in N, F. split; [exact N|]. split; [exact F|].
  intros id y H key l Hl. specialize (I id). rewrite H in I. destruct (lookup id (fst a)) as [x|] eqn:E; [|contradiction]. destruct I as (V & _). specialize (V key). rewrite Hl in V.
  destruct (hget key (it_values x)) as [[|?|[l0|]]|] eqn:El; try contradiction. eapply Hs; [|exact V]. eapply C; [exact E|exact El].
Qed.
End Counted.
Lemma countedT_same n : forall a b, countedT n a -> sameT true true n a b -> countedT n b.
Proof. induction n as [|n IH]; intros a b; cbn [countedT sameT]; [auto|]. apply counted_same_list. exact IH. Qed.
Lemma counted_same {n} (a b : sabun n) : counted_root a -> same_root true true a b -> counted_root b.
Proof.
  intros C S key l Hl. specialize (S key). rewrite Hl in S. destruct (hget key a) as [[|[l0|]]|] eqn:E; try contradiction.
  eapply countedT_same; [eapply C; exact E|exact S].
Qed.
Lemma freshlT_counted n : forall l, freshlT n l -> countedT n l.
Proof.
  induction n as [|n IH]; intros l; cbn [freshlT countedT]; [auto|]. intros (N & F & C). split; [exact N|]. split; [exact F|].
  intros id it H key x Hx. specialize (C id it H key _ Hx). cbn in C. apply IH; exact C.
Qed.
Lemma grown_list_counted {L} (fresh cnt : L -> Prop) (rel : L -> L -> Prop) a b : (forall l, fresh l -> cnt l) -> (forall x y, rel x y -> cnt y) ->
  grown_list fresh rel a b -> counted_list cnt b.
Proof.
  intros Hf Hr ((_ & K & N & F & _) & _). split; [exact N|]. split; [exact F|].
  intros id it H key x Hx. specialize (K id it H). destruct (lookup id (fst a)) as [y|].
  - destruct K as (_ & V & _). specialize (V key _ Hx). destruct (hget key (it_values y)) as [[|?|[z|]]|]; cbn in V; try contradiction; eauto.
  - specialize (K key _ Hx). cbn in K. auto.
Qed.
Lemma grownT_counted n : forall a b, grownT n a b -> countedT n b.
Proof.
  induction n as [|n IH]; intros a b; cbn [grownT countedT]; [auto|]. apply grown_list_counted; [apply freshlT_counted|exact IH].
Qed.

Lemma grown_counted {n} (a b : sabun n) : grown a b -> counted_root b.
Proof.
  intros (_ & V) key l Hl. specialize (V key _ Hl). destruct (hget key a) as [[|[x|]]|]; try contradiction. eapply grownT_counted; exact V.
Qed.

Section Next.
Context {L : Type}.
Variable same same' inner : L -> L -> Prop.
Hypothesis Hr : forall a b, same' a b -> same a b.
Hypothesis Hsym : forall a b, same a b -> same b a.
Hypothesis Ht : forall a b c, same a b -> same b c -> same a c.
Hypothesis Hi : forall a a' b b', same' a a' -> same' b b' -> inner a b -> inner a' b'.
Hypothesis Hsym' : forall a b, same' a b -> same' b a.
Lemma next_same_list a a' b b' : same_list true true same' a a' -> same_list true true same' b b' ->
  next_list true same inner a b -> next_list true same inner a' b'.
Proof.
  intros Sa Sb (X & N). split.
  - intros H. destruct Sa as (Oa & Ia & Xa), Sb as (Ob & Ib & Xb). rewrite <- (Xa eq_refl), <- (Xb eq_refl). apply X.
    eapply same_list_trans; [exact Ht| |eapply same_list_trans; [exact Ht|exact H|]].
    + eapply same_list_weaken; [exact Hr|]. split; [exact Oa|]. split; [exact Ia|exact Xa].
    + apply same_list_sym; [exact Hsym|]. eapply same_list_weaken; [exact Hr|]. split; [exact Ob|]. split; [exact Ib|exact Xb].
  - intros id x' y' Hx Hy. destruct Sa as (_ & Ia & _), Sb as (_ & Ib & _). specialize (Ia id). specialize (Ib id). rewrite Hx in Ia. rewrite Hy in Ib.
    destruct (lookup id (fst a)) as [x|] eqn:Ex; [|contradiction]. destruct (lookup id (fst b)) as [y|] eqn:Ey; [|contradiction].
    specialize (N id x y Ex Ey). intros key l l' Hl Hl'. destruct Ia as (Va & _), Ib as (Vb & _). specialize (Va key). specialize (Vb key). rewrite Hl in Va. rewrite Hl' in Vb.
    destruct (hget key (it_values x)) as [[|?|[z|]]|] eqn:Ez; try contradiction. destruct (hget key (it_values y)) as [[|?|[z'|]]|] eqn:Ez'; try contradiction.
    eapply Hi; [exact Va|exact Vb|]. eapply N; eassumption.
Qed.
End Next.
Lemma nextT_same n : forall a a' b b', DiffSpec.sameT true true n a a' -> DiffSpec.sameT true true n b b' -> nextT true n a b -> nextT true n a' b'.
Proof.
  induction n as [|n IH]; intros a a' b b'; cbn [nextT DiffSpec.sameT]; [auto|]. apply next_same_list.
  - intros x y. apply sameT_weaken.
  - apply sameT_sym.
  - apply sameT_trans.
  - exact IH.
Qed.
Lemma next_root_same {n} (a a' b b' : sabun n) : same_root true true a a' -> same_root true true b b' -> next_root true a b -> next_root true a' b'.
Proof.
  intros Sa Sb N key x y Hx Hy. specialize (Sa key). specialize (Sb key). rewrite Hx in Sa. rewrite Hy in Sb.
  destruct (hget key a) as [[|[z|]]|] eqn:Ez; try contradiction. destruct (hget key b) as [[|[z'|]]|] eqn:Ez'; try contradiction.
  eapply nextT_same; [exact Sa|exact Sb|]. eapply N; eassumption.
Qed.
