(** Proofs for C60: reference counts and copies on writing. *)
From Verif Require Import Base StringCompactionModel LinkedModel LinkedSpec DocModel JsonModel ValidModel IntfModel ArcModel ArcSpec.
From Verif Require Import LinkedProofs DiffProofs DiffProofs3.

(* ------------------------------------------------------------------ *)
(** * Occurrences *)

Lemma occ_nonneg x l : 0 <= occ x l.
Proof. induction l as [|y l IH]; cbn [occ]; [lia|]. destruct (y =? x); lia. Qed.
Lemma occ_app x l m : occ x (l ++ m) = occ x l + occ x m.
Proof. induction l as [|y l IH]; cbn [occ app]; lia. Qed.
Lemma occ_in x l : In x l <-> 0 < occ x l.
Proof.
  induction l as [|y l IH]; cbn [occ In]; [split; [tauto|lia]|].
  pose proof (occ_nonneg x l). destruct (Z.eqb_spec y x) as [E|E].
  - split; intros _; [lia|left; exact E].
  - rewrite IH. split; [intros [F|F]; [congruence|lia]|intros F; right; lia].
Qed.
Lemma occ_out x l : ~ In x l <-> occ x l = 0.
Proof. rewrite occ_in. pose proof (occ_nonneg x l). lia. Qed.

Lemma inside_nonneg x cs : 0 <= inside x cs.
Proof. induction cs as [|[a [c v]] cs IH]; cbn [inside]; [lia|]. pose proof (occ_nonneg x (children v)). lia. Qed.

Lemma inside_le x : forall cs a c v, lookup a cs = Some (c, v) -> occ x (children v) <= inside x cs.
Proof.
  induction cs as [|[k [c0 v0]] cs IH]; intros a c v; cbn [lookup inside]; [discriminate|].
  pose proof (inside_nonneg x cs). pose proof (occ_nonneg x (children v0)).
  destruct (a =? k); intros HL.
  - apply Some_inj in HL. apply pair_equal_spec in HL as [_ <-]. lia.
  - specialize (IH _ _ _ HL). lia.
Qed.

Lemma assign_absent {V} a (x : V) : forall cs, ~ In a (ids cs) -> assign a x cs = cs.
Proof.
  induction cs as [|[k y] cs IH]; cbn [assign map ids In fst]; intros H; [reflexivity|].
  destruct (Z.eqb_spec k a) as [->|]; [exfalso; apply H; left; reflexivity|].
  f_equal. apply IH. intros F. apply H. right. exact F.
Qed.

Lemma inside_assign x a c' v' : forall cs c v, NoDup (ids cs) -> lookup a cs = Some (c, v) ->
  inside x (assign a (c', v') cs) = inside x cs - occ x (children v) + occ x (children v').
Proof.
  induction cs as [|[k [c0 v0]] cs IH]; intros c v ND; cbn [lookup assign map ids fst inside] in *; [discriminate|].
  inversion ND as [|? ? N1 N2]; subst. rewrite (Z.eqb_sym k a).
  destruct (Z.eqb_spec a k) as [->|NE]; intros H; cbn [inside].
  - apply Some_inj in H. apply pair_equal_spec in H as [_ <-].
    change (map _ cs) with (assign k (c', v') cs). rewrite assign_absent by exact N1. lia.
  - change (map _ cs) with (assign a (c', v') cs). rewrite (IH _ _ N2 H). lia.
Qed.

Lemma inside_without x a : forall cs c v, NoDup (ids cs) -> lookup a cs = Some (c, v) ->
  inside x (without a cs) = inside x cs - occ x (children v).
Proof.
  induction cs as [|[k [c0 v0]] cs IH]; intros c v ND; cbn [lookup without filter ids fst map inside] in *; [discriminate|].
  inversion ND as [|? ? N1 N2]; subst. rewrite (Z.eqb_sym k a).
  destruct (Z.eqb_spec a k) as [->|NE]; intros H; cbn [negb inside].
  - apply Some_inj in H. apply pair_equal_spec in H as [_ <-].
    change (filter _ cs) with (without k cs). rewrite without_absent by exact N1. lia.
  - change (filter _ cs) with (without a cs). rewrite (IH _ _ N2 H). lia.
Qed.

Lemma lookup_has {V} a (cs : list (Z * V)) x : lookup a cs = Some x -> has a cs = true.
Proof. unfold has. intros ->. reflexivity. Qed.

Lemma in_has {V} a : forall cs : list (Z * V), In a (ids cs) -> has a cs = true.
Proof.
  induction cs as [|[k y] cs IH]; intros H; [destruct H|]. unfold has. cbn [lookup].
  destruct (Z.eqb_spec a k); [reflexivity|]. destruct H as [H|H]; [cbn in H; congruence|]. apply IH, H.
Qed.

(* ------------------------------------------------------------------ *)
(** * Contents *)

Lemma content_lookup h a c v : lookup a (cells h) = Some (c, v) -> content h a = Some v.
Proof. unfold content. intros ->. reflexivity. Qed.
Lemma lookup_content h a v : content h a = Some v -> exists c, lookup a (cells h) = Some (c, v).
Proof. unfold content. destruct (lookup a (cells h)) as [[c w]|]; [|discriminate]. intros E. apply Some_inj in E as ->. exists c. reflexivity. Qed.

Lemma lookup_put h a x y : lookup y (cells (put h a x)) = if (y =? a) && has a (cells h) then Some x else lookup y (cells h).
Proof. apply lookup_assign. Qed.
Lemma lookup_put_same h a x y : lookup a (cells h) = Some y -> lookup a (cells (put h a x)) = Some x.
Proof. intros H. rewrite lookup_put, Z.eqb_refl, (lookup_has _ _ _ H). reflexivity. Qed.
Lemma lookup_put_other h a x y : y <> a -> lookup y (cells (put h a x)) = lookup y (cells h).
Proof. intros H. rewrite lookup_put. destruct (Z.eqb_spec y a); [contradiction|reflexivity]. Qed.
Lemma lookup_free h a y : lookup y (cells (free h a)) = if y =? a then None else lookup y (cells h).
Proof. apply lookup_without_all. Qed.

Lemma content_put_other h a x y : y <> a -> content (put h a x) y = content h y.
Proof. intros H. unfold content. rewrite lookup_put_other by exact H. reflexivity. Qed.
Lemma content_put_same_cell h a c c' v : lookup a (cells h) = Some (c, v) -> forall y, content (put h a (c', v)) y = content h y.
Proof.
  intros H y. destruct (Z.eq_dec y a) as [->|NE]; [|apply content_put_other; exact NE].
  unfold content. rewrite (lookup_put_same _ _ _ _ H), H. reflexivity.
Qed.
Lemma content_free_other h a y : y <> a -> content (free h a) y = content h y.
Proof. intros H. unfold content. rewrite lookup_free. destruct (Z.eqb_spec y a); [contradiction|reflexivity]. Qed.

(** the cells below [x] keep their contents *)
Definition kept (h h' : heap) (x : Z) : Prop :=
  exists Q : Z -> Prop, Q x /\ forall y v, Q y -> content h y = Some v -> content h' y = Some v /\ forall z, In z (children v) -> Q z.

Lemma kept_same h h' x : (forall y v, content h y = Some v -> content h' y = Some v) -> kept h h' x.
Proof. intros H. exists (fun _ => True). split; [exact Logic.I|]. intros y v _ E. split; [apply H; exact E|intros; exact Logic.I]. Qed.
Lemma kept_refl h x : kept h h x.
Proof. apply kept_same. intros; assumption. Qed.
Lemma kept_trans h1 h2 h3 x : kept h1 h2 x -> kept h2 h3 x -> kept h1 h3 x.
Proof.
  intros (Q1 & X1 & C1) (Q2 & X2 & C2). exists (fun y => Q1 y /\ Q2 y). split; [split; assumption|].
  intros y v [A B] E. destruct (C1 _ _ A E) as [E1 S1]. destruct (C2 _ _ B E1) as [E2 S2].
  split; [exact E2|]. intros z Hz. split; [apply S1|apply S2]; exact Hz.
Qed.
Lemma kept_avoid h h' a x : (forall y v, y <> a -> content h y = Some v -> content h' y = Some v) ->
  inside a (cells h) = 0 -> x <> a -> kept h h' x.
Proof.
  intros H I0 NE. exists (fun y => y <> a). split; [exact NE|]. intros y v Hy E. split; [apply H; assumption|].
  intros z Hz ->. destruct (lookup_content _ _ _ E) as [c L]. pose proof (inside_le a _ _ _ _ L).
  apply occ_in in Hz. lia.
Qed.
Lemma kept_content h h' x v : kept h h' x -> content h x = Some v -> content h' x = Some v.
Proof. intros (Q & X & C) E. apply (C _ _ X E). Qed.
Lemma kept_child h h' x v z : kept h h' x -> content h x = Some v -> In z (children v) -> kept h h' z.
Proof. intros (Q & X & C) E Hz. exists Q. split; [apply (C _ _ X E); exact Hz|exact C]. Qed.

(* ------------------------------------------------------------------ *)
(** * Counts *)

Lemma counted_occ h l l' : (forall x, occ x l = occ x l') -> counted h l -> counted h l'.
Proof. intros E (A & B & C & R). split; [exact A|]. split; [exact B|]. split; [|exact R]. intros x. rewrite <- E. apply C. Qed.

Lemma counted_live h l x : counted h l -> In x l -> exists c v, lookup x (cells h) = Some (c, v).
Proof.
  intros (_ & _ & C & _) H. apply occ_in in H. specialize (C x). unfold count in C. pose proof (inside_nonneg x (cells h)).
  destruct (lookup x (cells h)) as [[c v]|]; [exists c, v; reflexivity|lia].
Qed.
Lemma counted_content h l x : counted h l -> In x l -> exists v, content h x = Some v.
Proof. intros C H. destruct (counted_live _ _ _ C H) as (c & v & L). exists v. eapply content_lookup, L. Qed.
Lemma counted_child h l a v x : counted h l -> content h a = Some v -> In x (children v) -> exists c w, lookup x (cells h) = Some (c, w).
Proof.
  intros (_ & _ & C & _) E H. destruct (lookup_content _ _ _ E) as [c L]. pose proof (inside_le x _ _ _ _ L).
  apply occ_in in H. specialize (C x). unfold count in C. pose proof (occ_nonneg x l).
  destruct (lookup x (cells h)) as [[c' w]|]; [exists c', w; reflexivity|lia].
Qed.

Lemma in_inside x : forall cs a c v, lookup a cs = Some (c, v) -> In x (children v) -> 0 < inside x cs.
Proof. intros cs a c v L H. pose proof (inside_le x _ _ _ _ L). apply occ_in in H. lia. Qed.

(** a rank above those of [l] *)
Definition above (rank : Z -> nat) (l : list Z) : nat := S (fold_right Nat.max O (map rank l)).
Lemma above_in rank l x : In x l -> (rank x < above rank l)%nat.
Proof. unfold above. induction l as [|y l IH]; cbn [In map fold_right]; [tauto|]. intros [->|H]; [lia|]. specialize (IH H). lia. Qed.

(** a cell that no cell refers to may get any content without references to it *)
Lemma layered_put h h' a v' : layered h -> inside a (cells h') = 0 -> content h' a = Some v' ->
  (forall y, y <> a -> content h' y = content h y) -> layered h'.
Proof.
  intros [rank R] I0 E O. exists (fun x => if x =? a then above rank (children v') else rank x).
  intros y v x Ey Hx. assert (NE : x <> a). { intros ->. destruct (lookup_content _ _ _ Ey) as [c L]. pose proof (in_inside _ _ _ _ _ L Hx). lia. }
  apply Z.eqb_neq in NE. rewrite NE. destruct (Z.eqb_spec y a) as [->|Ny].
  - rewrite E in Ey. apply Some_inj in Ey as <-. apply above_in, Hx.
  - rewrite (O y Ny) in Ey. eapply R; eassumption.
Qed.
Lemma layered_same h h' : layered h -> (forall y v, content h' y = Some v -> content h y = Some v) -> layered h'.
Proof. intros [rank R] O. exists rank. intros y v x Ey Hx. eapply R; [apply O, Ey|exact Hx]. Qed.

Lemma counted_put h l l' a c v c' v' : counted h l -> lookup a (cells h) = Some (c, v) -> 0 < c' ->
  (forall x, occ x l' + occ x (children v') = occ x l + occ x (children v) + (if x =? a then c' - c else 0)) ->
  v' = v \/ c' = 1 /\ In a l' ->
  counted (put h a (c', v')) l'.
Proof.
  intros (A & B & C & R) L P H Hv. unfold counted.
  assert (C' : forall x, count (put h a (c', v')) x = occ x l' + inside x (cells (put h a (c', v')))).
  { intros x. unfold put at 2. cbn [cells]. rewrite (inside_assign x a c' v' _ _ _ A L).
    specialize (H x). specialize (C x). unfold count in *. rewrite lookup_put, (lookup_has _ _ _ L), andb_true_r.
    destruct (Z.eqb_spec x a) as [->|NE]; [rewrite L in C|]; lia. }
  split; [cbn [put cells]; unfold assign, ids; rewrite map_map; erewrite map_ext; [exact A|intros e; destruct (fst e =? a); reflexivity]|].
  split; [|split; [exact C'|]].
  - intros y cy vy. rewrite lookup_put. destruct ((y =? a) && has a (cells h)); [|apply B].
    intros E. apply Some_inj in E. apply pair_equal_spec in E as [<- _]. exact P.
  - destruct Hv as [->|[-> Hl]].
    + apply layered_same with h; [exact R|]. intros y w. rewrite (content_put_same_cell h a c c' v L). intros E; exact E.
    + apply layered_put with h a v'; [exact R| | |intros y NE; apply content_put_other, NE].
      * specialize (C' a). unfold count in C'. rewrite (lookup_put_same _ _ _ _ L) in C'. apply occ_in in Hl.
        pose proof (inside_nonneg a (cells (put h a (1, v')))). lia.
      * eapply content_lookup, lookup_put_same, L.
Qed.

Lemma counted_free h l l' a v : counted h l -> lookup a (cells h) = Some (1, v) ->
  (forall x, occ x l + occ x (children v) = (if x =? a then 1 else 0) + occ x l') -> counted (free h a) l'.
Proof.
  intros (A & B & C & R) L H. unfold counted.
  split; [cbn [free cells]; rewrite ids_without; apply NoDup_filter, A|].
  split; [|split].
  - intros y cy vy. rewrite lookup_free. destruct (y =? a); [discriminate|apply B].
  - intros x. unfold free at 2. cbn [cells]. rewrite (inside_without x a _ _ _ A L).
    specialize (H x). specialize (C x). unfold count in *. rewrite lookup_free.
    destruct (Z.eqb_spec x a) as [->|NE]; [rewrite L in C|]; lia.
  - apply layered_same with h; [exact R|]. intros y w. unfold content. rewrite lookup_free. destruct (y =? a); [discriminate|intros E; exact E].
Qed.

(** what no reference leads to is not there any more *)
Lemma counted_leads h l : counted h l -> forall a v, content h a = Some v -> exists x, In x l /\ leads h x a.
Proof.
  intros (ND & B & C & rank & R). set (top := above rank (ids (cells h))).
  assert (H : forall k a v, content h a = Some v -> (top <= k + rank a)%nat -> exists x, In x l /\ leads h x a).
  { assert (Hin : forall a v, content h a = Some v -> (rank a < top)%nat).
    { intros a v E. apply above_in. destruct (lookup_content _ _ _ E) as [c L]. apply lookup_in', (in_map fst) in L. exact L. }
    induction k as [|k IH]; intros a v E K; [specialize (Hin a v E); lia|].
    destruct (lookup_content _ _ _ E) as [c L]. specialize (B _ _ _ L). specialize (C a). unfold count in C. rewrite L in C.
    destruct (In_dec Z.eq_dec a l) as [Hl|Hl]; [exists a; split; [exact Hl|apply leads_here]|]. apply occ_out in Hl.
    assert (Hb : forall cs, NoDup (ids cs) -> 0 < inside a cs -> exists b cb w, lookup b cs = Some (cb, w) /\ In a (children w)).
    { clear. induction cs as [|[b [cb w]] cs IH]; cbn [inside ids map fst]; intros ND P; [lia|].
      inversion ND as [|? ? N1 N2]; subst. destruct (In_dec Z.eq_dec a (children w)) as [Hw|Hw].
      - exists b, cb, w. cbn [lookup]. rewrite Z.eqb_refl. split; [reflexivity|exact Hw].
      - apply occ_out in Hw. destruct (IH N2 ltac:(lia)) as (b' & cb' & w' & L' & H'). exists b', cb', w'. split; [|exact H'].
        cbn [lookup]. destruct (Z.eqb_spec b' b) as [->|]; [|exact L']. exfalso. apply N1. apply lookup_in', (in_map fst) in L'. exact L'. }
    destruct (Hb (cells h) ND ltac:(lia)) as (b & cb & w & Lb & Hw). pose proof (content_lookup _ _ _ _ Lb) as Eb.
    pose proof (R b w a Eb Hw). destruct (IH b w Eb ltac:(lia)) as (x & Hx & Lx). exists x. split; [exact Hx|].
    clear - Lx Eb Hw. induction Lx as [b|x v y b Ex Hy Lx IH]; [eapply leads_on; [exact Eb|exact Hw|apply leads_here]|].
    eapply leads_on; [exact Ex|exact Hy|apply IH; assumption]. }
  intros a v E. apply (H top a v E). lia.
Qed.

(* ------------------------------------------------------------------ *)
(** * Steps that replace the references in hand *)

Section Held.
(** references of the definition *)
Variable held : list Z.

(** From [refs] in hand to [refs'] in hand: counts stay right, what is below other references
    stays, and no reference to a cell that only others refer to comes up. *)
Definition moved (out : list Z) (h : heap) (refs : list Z) (h' : heap) (refs' : list Z) : Prop :=
  counted h' (refs' ++ out) /\
  (forall x, In x out -> kept h h' x) /\
  (forall x, In x out -> ~ In x held -> ~ In x refs -> inside x (cells h) = 0 -> inside x (cells h') = 0 /\ ~ In x refs').

Lemma moved_refl out h refs : counted h (refs ++ out) -> moved out h refs h refs.
Proof. intros C. split; [exact C|]. split; [intros; apply kept_refl|intros; split; assumption]. Qed.
Lemma moved_trans out h1 r1 h2 r2 h3 r3 : moved out h1 r1 h2 r2 -> moved out h2 r2 h3 r3 -> moved out h1 r1 h3 r3.
Proof.
  intros (_ & K1 & A1) (C & K2 & A2). split; [exact C|]. split.
  - intros x H. eapply kept_trans; [apply K1|apply K2]; exact H.
  - intros x H1 H2 H3 H4. destruct (A1 x H1 H2 H3 H4) as [I1 N1]. apply A2; assumption.
Qed.
Lemma moved_occ out h r r2 h' r' r2' : (forall x, occ x r = occ x r2) -> (forall x, occ x r' = occ x r2') ->
  moved out h r h' r' -> moved out h r2 h' r2'.
Proof.
  intros E E' (C & K & A). split; [revert C; apply counted_occ; intros x; rewrite !occ_app, E'; reflexivity|].
  split; [exact K|]. intros x H1 H2 H3 H4. rewrite occ_out, <- E, <- occ_out in H3.
  destruct (A x H1 H2 H3 H4) as [I N]. split; [exact I|]. rewrite occ_out, <- E', <- occ_out. exact N.
Qed.
(** what is not touched may be in hand or not *)
Lemma moved_frame out rest h r h' r' : moved (rest ++ out) h r h' r' -> moved out h (r ++ rest) h' (r' ++ rest).
Proof.
  intros (C & K & A). split; [rewrite <- app_assoc; exact C|]. split.
  - intros x H. apply K. apply in_or_app. right. exact H.
  - intros x H1 H2 H3 H4. destruct (A x) as [I N]; auto.
    + apply in_or_app. right. exact H1.
    + intros F. apply H3. apply in_or_app. left. exact F.
    + split; [exact I|]. intros F. apply in_app_or in F as [F|F]; [exact (N F)|].
      apply H3. apply in_or_app. right. exact F.
Qed.
Lemma moved_kept_rest out rest h r h' r' x : moved (rest ++ out) h r h' r' -> In x rest -> kept h h' x.
Proof. intros (_ & K & _) H. apply K. apply in_or_app. left. exact H. Qed.

(** the only reference to a cell is in hand *)
Definition owned (h : heap) (a : Z) (v : cell) : Prop := lookup a (cells h) = Some (1, v).

Lemma owned_content h a v : owned h a v -> content h a = Some v.
Proof. apply content_lookup. Qed.
Lemma owned_alone h refs a out v : counted h (refs ++ a :: out) -> owned h a v ->
  ~ In a refs /\ ~ In a out /\ inside a (cells h) = 0.
Proof.
  intros (_ & _ & C & _) O. specialize (C a). unfold count in C. rewrite O, occ_app in C. cbn [occ] in C. rewrite Z.eqb_refl in C.
  pose proof (occ_nonneg a refs). pose proof (occ_nonneg a out). pose proof (inside_nonneg a (cells h)).
  rewrite !occ_out. lia.
Qed.
(** it stays so while something else is done *)
Lemma owned_stays h refs a out v h' refs' : counted h (refs ++ a :: out) -> incl held out -> owned h a v ->
  moved (a :: out) h refs h' refs' -> owned h' a v.
Proof.
  intros C HH O (C' & K & A). destruct (owned_alone _ _ _ _ _ C O) as (N1 & N2 & I0).
  destruct (A a) as [I' N']; auto; [left; reflexivity|].
  pose proof (kept_content _ _ _ _ (K a (or_introl eq_refl)) (owned_content _ _ _ O)) as E.
  destruct (lookup_content _ _ _ E) as [c L]. unfold owned. rewrite L.
  destruct C' as (_ & _ & C' & _). specialize (C' a). unfold count in C'. rewrite L, occ_app in C'. cbn [occ] in C'. rewrite Z.eqb_refl in C'.
  apply occ_out in N', N2. do 2 f_equal. lia.
Qed.

(** writing to an owned cell *)
Lemma moved_put out h a rest rest' v v' : counted h ((a :: rest) ++ out) -> owned h a v ->
  (forall x, occ x rest' + occ x (children v') = occ x rest + occ x (children v)) ->
  moved out h (a :: rest) (put h a (1, v')) (a :: rest') /\ owned (put h a (1, v')) a v' /\
  (forall x, x <> a -> kept h (put h a (1, v')) x).
Proof.
  intros C O E. destruct (owned_alone h [] a (rest ++ out) v) as (_ & N & I0); [exact C|exact O|].
  assert (KA : forall x, x <> a -> kept h (put h a (1, v')) x).
  { intros x NE. apply kept_avoid with a; [|exact I0|exact NE]. intros y w Hy Ey. rewrite content_put_other by exact Hy. exact Ey. }
  split; [|split; [eapply lookup_put_same; exact O|exact KA]].
  split; [|split].
  - eapply counted_put; [exact C|exact O|lia| |right; split; [reflexivity|left; reflexivity]]. intros x. specialize (E x). cbn [occ app]. rewrite !occ_app.
    destruct (x =? a); lia.
  - intros x H. apply KA. intros ->. apply N. apply in_or_app. right. exact H.
  - intros x H1 H2 H3 H4. unfold put. cbn [cells]. destruct C as (ND & _).
    rewrite (inside_assign x a 1 v' _ _ _ ND O). specialize (E x).
    pose proof (inside_le x _ _ _ _ O). pose proof (occ_nonneg x (children v)). pose proof (occ_nonneg x (children v')).
    pose proof (occ_nonneg x rest').
    assert (occ x rest = 0) by (apply occ_out; intros F; apply H3; right; exact F).
    split; [lia|]. intros [F|F]; [apply H3; left; exact F|]. apply occ_in in F. lia.
Qed.

(** one reference less *)
Lemma moved_release out h a c v : counted h (a :: out) -> lookup a (cells h) = Some (c, v) -> c <> 1 ->
  moved out h [a] (put h a (c - 1, v)) [] /\ (forall y, content (put h a (c - 1, v)) y = content h y).
Proof.
  intros C L NE. assert (P : 0 < c) by (destruct C as (_ & B & _); exact (B _ _ _ L)).
  pose proof (content_put_same_cell h a c (c - 1) v L) as SC. split; [|exact SC]. split; [|split].
  - eapply counted_put; [exact C|exact L|lia| |left; reflexivity]. intros x. cbn [occ app]. rewrite (Z.eqb_sym a x). destruct (x =? a); lia.
  - intros x _. apply kept_same. intros y w. rewrite SC. intros E; exact E.
  - intros x H1 H2 H3 H4. split; [|intros []]. unfold put. cbn [cells]. destruct C as (ND & _).
    rewrite (inside_assign x a _ v _ _ _ ND L). lia.
Qed.
(** the last reference *)
Lemma moved_free out h a v : counted h (a :: out) -> lookup a (cells h) = Some (1, v) ->
  moved out h [a] (free h a) (children v) /\ (forall x, x <> a -> kept h (free h a) x).
Proof.
  intros C L. destruct (owned_alone h [] a out v) as (_ & N & I0); [exact C|exact L|].
  assert (KA : forall x, x <> a -> kept h (free h a) x).
  { intros x NE. apply kept_avoid with a; [|exact I0|exact NE]. intros y w Hy Ey. rewrite content_free_other by exact Hy. exact Ey. }
  split; [|exact KA]. split; [|split].
  - eapply counted_free; [exact C|exact L|]. intros x. rewrite occ_app. cbn [occ]. rewrite (Z.eqb_sym a x). lia.
  - intros x H. apply KA. intros ->. exact (N H).
  - intros x H1 H2 H3 H4. pose proof (inside_le x _ _ _ _ L). pose proof (occ_nonneg x (children v)).
    split; [|apply occ_out; lia]. unfold free. cbn [cells]. destruct C as (ND & _). rewrite (inside_without x a _ _ _ ND L). lia.
Qed.

Section Alloc.
Variable alloc : Z -> list (Z * (Z * cell)) -> Z.
Hypothesis fresh : fresh_alloc alloc.
Notation new := (new alloc).
Notation make_mut := (make_mut alloc).

(** a new cell *)
Lemma moved_new out h v rest : counted h ((children v ++ rest) ++ out) ->
  let h' := fst (new h v) in let b := snd (new h v) in
  moved out h (children v ++ rest) h' (b :: rest) /\ owned h' b v /\
  (forall y w, content h y = Some w -> content h' y = Some w) /\ content h b = None.
Proof.
  intros C. cbn zeta. unfold ArcModel.new. cbn [fst snd]. set (b := alloc (clock h) (cells h)).
  pose proof (fresh (clock h) (cells h)) as F. fold b in F.
  assert (X : forall y w, content h y = Some w -> content (Heap ((b, (1, v)) :: cells h) (clock h + 1)) y = Some w).
  { intros y w. unfold content. cbn [cells lookup]. destruct (Z.eqb_spec y b) as [->|]; [rewrite F; discriminate|intros E; exact E]. }
  assert (B0 : occ b ((children v ++ rest) ++ out) + inside b (cells h) = 0).
  { destruct C as (_ & _ & C & _). specialize (C b). unfold count in C. rewrite F in C. lia. }
  split; [|split; [|split; [exact X|unfold content; rewrite F; reflexivity]]].
  - split; [|split].
    + destruct C as (ND & P & C & R). split; [|split; [|split]].
      * cbn [cells ids map fst]. constructor; [|exact ND]. intros H.
        assert (has b (cells h) = true) as E.
        { apply in_has. exact H. }
        unfold has in E. rewrite F in E. discriminate.
      * intros y cy vy. cbn [cells lookup]. destruct (y =? b); [|apply P].
        intros E. apply Some_inj in E. apply pair_equal_spec in E as [<- _]. lia.
      * intros x. unfold count. cbn [cells lookup inside]. specialize (C x). unfold count in C. cbn [app occ]. rewrite !occ_app in *. rewrite (Z.eqb_sym b x).
        pose proof (occ_nonneg b (children v)). pose proof (occ_nonneg b rest). pose proof (occ_nonneg b out). pose proof (inside_nonneg b (cells h)).
        destruct (Z.eqb_spec x b) as [->|]; lia.
      * rewrite !occ_app in B0. pose proof (occ_nonneg b (children v)). pose proof (occ_nonneg b rest). pose proof (occ_nonneg b out). pose proof (inside_nonneg b (cells h)).
        apply layered_put with h b v; [exact R| | |].
        -- cbn [cells inside]. lia.
        -- unfold content. cbn [cells lookup]. rewrite Z.eqb_refl. reflexivity.
        -- intros y NE. unfold content. cbn [cells lookup]. apply Z.eqb_neq in NE. rewrite NE. reflexivity.
    + intros x _. apply kept_same. exact X.
    + intros x H1 H2 H3 H4. cbn [cells inside]. apply occ_out in H3. rewrite occ_app in H3.
      pose proof (occ_nonneg x (children v)). pose proof (occ_nonneg x rest).
      split; [lia|]. intros [E|E]; [|apply occ_in in E; lia]. subst x.
      rewrite !occ_app in B0. apply occ_in in H1. lia.
  - unfold owned. cbn [cells lookup]. rewrite Z.eqb_refl. reflexivity.
Qed.

Lemma mfold_share : forall l h out, counted h out -> (forall x, In x l -> exists c v, lookup x (cells h) = Some (c, v)) ->
  exists h', mfold share l h = Ok h' /\ counted h' (l ++ out) /\ (forall y, content h' y = content h y) /\
    (forall x, inside x (cells h') = inside x (cells h)).
Proof.
  induction l as [|a l IH]; intros h out C Lv; cbn [mfold].
  - exists h. split; [reflexivity|]. split; [exact C|]. split; intros; reflexivity.
  - destruct (Lv a (or_introl eq_refl)) as (c & v & L). unfold share at 1, get. rewrite L. cbn [bind].
    assert (P : 0 < c) by (destruct C as (_ & B & _); exact (B _ _ _ L)).
    pose proof (content_put_same_cell h a c (c + 1) v L) as SC.
    destruct (IH (put h a (c + 1, v)) (a :: out)) as (h' & E & C' & SC' & IN').
    + eapply counted_put; [exact C|exact L|lia| |left; reflexivity]. intros x. cbn [occ]. rewrite (Z.eqb_sym a x). destruct (x =? a); lia.
    + intros x Hx. destruct (Lv x (or_intror Hx)) as (cx & vx & Lx). rewrite lookup_put.
      destruct ((x =? a) && has a (cells h)); [exists (c + 1), v|exists cx, vx]; [reflexivity|exact Lx].
    + exists h'. split; [exact E|]. split; [revert C'; apply counted_occ; intros x; cbn [app occ]; rewrite !occ_app; cbn [occ]; lia|].
      split; [intros y; rewrite SC'; apply SC|].
      intros x. rewrite IN'. unfold put. cbn [cells]. destruct C as (ND & _). rewrite (inside_assign x a _ v _ _ _ ND L). lia.
Qed.

(** references of the definition are copied *)
Lemma moved_share out h l : counted h out -> incl l held -> incl held out ->
  exists h', mfold share l h = Ok h' /\ moved out h [] h' l /\ (forall y, content h' y = content h y).
Proof.
  intros C H1 H2. destruct (mfold_share l h out C) as (h' & E & C' & SC & IN).
  { intros x Hx. eapply counted_live; [exact C|]. apply H2, H1, Hx. }
  exists h'. split; [exact E|]. split; [|exact SC]. split; [exact C'|]. split.
  - intros x _. apply kept_same. intros y w. rewrite SC. intros F; exact F.
  - intros x X1 X2 X3 X4. split; [rewrite IN; exact X4|]. intros F. apply X2, H1, F.
Qed.

Lemma children_clone v : children (clone_cell v) = children v.
Proof. destruct v as [| | |[[|e l] k]]; reflexivity. Qed.

(** [make_mut]: the result is owned, everything that was there is still there *)
Lemma make_mut_spec out h a v : counted h (a :: out) -> content h a = Some v ->
  exists h' b v', make_mut h a = Ok (h', b, v') /\ (v' = v \/ v' = clone_cell v) /\
    moved out h [a] h' [b] /\ owned h' b v' /\ (forall y w, content h y = Some w -> content h' y = Some w).
Proof.
  intros C E. destruct (lookup_content _ _ _ E) as [c L]. unfold ArcModel.make_mut, get. rewrite L. cbn [bind].
  destruct (Z.eqb_spec c 1) as [->|NE].
  - exists h, a, v. split; [reflexivity|]. split; [left; reflexivity|]. split; [apply moved_refl; exact C|].
    split; [exact L|]. intros y w H; exact H.
  - destruct (mfold_share (children v) h (a :: out) C) as (h1 & E1 & C1 & SC1 & IN1).
    { intros x Hx. eapply counted_child; [exact C|exact E|exact Hx]. }
    rewrite E1. cbn [bind].
    assert (P : 0 < c) by (destruct C as (_ & B & _); exact (B _ _ _ L)).
    destruct (moved_new (a :: out) h1 (clone_cell v) []) as (M2 & O2 & X2 & D2).
    { revert C1. apply counted_occ. intros x. rewrite children_clone, app_nil_r. reflexivity. }
    destruct (new h1 (clone_cell v)) as [h2 b] eqn:N2. cbn [fst snd] in M2, O2, X2, D2.
    assert (E2 : content h2 a = Some v) by (apply X2; rewrite SC1; exact E).
    destruct (lookup_content _ _ _ E2) as [c2 L2]. rewrite L2. cbn [bind].
    assert (NB : b <> a) by (intros ->; rewrite SC1, E in D2; discriminate).
    assert (C2 : counted h2 (b :: a :: out)) by (destruct M2 as (C2 & _); exact C2).
    assert (SC3 : forall y, content (put h2 a (c2 - 1, v)) y = content h2 y) by (apply (content_put_same_cell h2 a c2 (c2 - 1) v L2)).
    (* the count of [a] was at least 2 *)
    assert (CA : count h a = c) by (unfold count; rewrite L; reflexivity).
    assert (IN2 : forall x, inside x (cells h2) = inside x (cells h1) + occ x (children v)).
    { intros x. unfold ArcModel.new in N2. apply pair_equal_spec in N2 as [<- _]. cbn [cells inside]. rewrite children_clone. lia. }
    assert (K2 : 1 < c2).
    { destruct C as (_ & _ & C & _). destruct C2 as (_ & _ & C2 & _). specialize (C a). specialize (C2 a). unfold count in C, C2.
      rewrite L in C. rewrite L2 in C2. cbn [occ] in C, C2. rewrite Z.eqb_refl in C, C2. rewrite IN2, IN1 in C2.
      pose proof (occ_nonneg a (children v)). destruct (b =? a); lia. }
    exists (put h2 a (c2 - 1, v)), b, (clone_cell v). split; [reflexivity|]. split; [right; reflexivity|].
    split; [|split].
    + split; [|split].
      * eapply counted_put; [exact C2|exact L2|lia| |left; reflexivity]. intros x. cbn [occ app]. rewrite (Z.eqb_sym a x). destruct (x =? a); lia.
      * intros x _. apply kept_same. intros y w Hy. rewrite SC3. apply X2. rewrite SC1. exact Hy.
      * intros x H1 H2 H3 H4. pose proof (inside_le x _ _ _ _ L). pose proof (occ_nonneg x (children v)). split.
        -- unfold put. cbn [cells]. destruct C2 as (ND & _). rewrite (inside_assign x a _ v _ _ _ ND L2), IN2, IN1. lia.
        -- intros [->|[]]. destruct (counted_content h (a :: out) x C (or_intror H1)) as [w W]. rewrite SC1, W in D2. discriminate.
    + unfold owned. rewrite lookup_put_other by exact NB. exact O2.
    + intros y w Hy. rewrite SC3. apply X2. rewrite SC1. exact Hy.
Qed.

End Alloc.
End Held.
