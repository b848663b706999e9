(** Proofs about arrays, objects and whole texts (C50). *)
From Coq Require Import String.
From Verif Require Import Base FloatModel CompactionModel StringCompactionModel StringCompactionProofs ArchiveModel DocModel DiffProofs JsonModel Json5Model Json5Spec Json5Proofs Json5FloatProofs Json5NumberProofs Json5StringProofs.

(* ------------------------------------------------------------------ *)
(** * Between brackets *)

Inductive list_text {A} (P : list Z -> A -> Prop) : list Z -> list A -> Prop :=
| list_none w : gap w -> list_text P w []
| list_one w1 t a w2 : gap w1 -> P t a -> gap w2 -> list_text P (w1 ++ t ++ w2) [a]
| list_more w1 t a w2 t' l : gap w1 -> P t a -> gap w2 -> list_text P t' l -> list_text P (w1 ++ t ++ w2 ++ [44] ++ t') (a :: l).

Lemma skip_skip s : skip (skip s) = skip s.
Proof. apply skip_none, skip_done. Qed.
Lemma skip_some_gap s : skip s <> [] -> exists w, s = w ++ skip s /\ gap w.
Proof. intros N. destruct (skip_some s) as (w & E & [G|[Z0 _]]); [eauto|congruence]. Qed.
Lemma nonempty_app (a : list Z) c r : a ++ c :: r <> [].
Proof. destruct a; discriminate. Qed.

Section Bracketed.
Context {A : Type}.
Variable p : list Z -> option (A * list Z).
Variable P : list Z -> A -> Prop.

Section Sound.
Hypothesis sound : forall s a r, p s = Some (a, r) -> exists t, s = t ++ r /\ P t a.

Lemma comma_some s a r : comma p s = Some (a, r) -> exists r0 t, skip s = 44 :: r0 /\ skip r0 = t ++ r /\ P t a.
Proof.
  unfold comma. destruct (chr 44 (skip s)) as [[x r0]|] eqn:E; [|discriminate]. apply chr_some in E as [-> E]. intros H. apply sound in H as (t & H & Pt). exists r0, t. auto.
Qed.
Lemma comma_progress : progress (comma p).
Proof.
  intros s a r H. apply comma_some in H as (r0 & t & E1 & E2 & _). destruct (skip_gap _ _ _ E1) as (w & -> & _). destruct (skip_some r0) as (w' & -> & _). rewrite E2.
  rewrite app_length. cbn. rewrite !app_length. lia.
Qed.

Definition tail_text (c : Z) (s r : list Z) : Prop :=
  exists w, gap w /\ (s = w ++ c :: r \/ exists w', gap w' /\ s = w ++ 44 :: w' ++ c :: r).

Lemma runs_text c s l s' r : runs (comma p) s l s' -> tail_text c s' r ->
  exists u, s = u ++ c :: r /\ forall w1 t a, gap w1 -> P t a -> list_text P (w1 ++ t ++ u) (a :: l).
Proof.
  induction 1 as [s _|s a s1 l s' E R IH]; intros T.
  - destruct T as (w & G & [-> | (w' & G' & ->)]).
    + exists w. split; [reflexivity|]. intros w1 t a G1 Pt. apply list_one; assumption.
    + exists (w ++ [44] ++ w'). split; [rewrite <- !app_assoc; reflexivity|]. intros w1 t a G1 Pt. apply list_more; auto. apply list_none. exact G'.
  - destruct (IH T) as (u & -> & K). apply comma_some in E as (r0 & t & E1 & E2 & Pt). destruct (skip_gap _ _ _ E1) as (w2 & -> & G2).
    assert (N : skip r0 <> []) by (rewrite E2, app_assoc; apply nonempty_app). destruct (skip_some_gap r0 N) as (w3 & E3 & G3). rewrite E2 in E3. subst r0.
    exists (w2 ++ [44] ++ w3 ++ t ++ u). split; [rewrite <- !app_assoc; cbn [app]; rewrite <- ?app_assoc; reflexivity|].
    intros w1 t1 a1 G1 Pt1. apply list_more; auto.
Qed.

Lemma bracketed_some o c s l r : bracketed o c p s = Some (l, r) -> exists t, s = [o] ++ t ++ c :: r /\ list_text P t l.
Proof.
  unfold bracketed. destruct (chr o s) as [[x r0]|] eqn:E; [|discriminate]. apply chr_some in E as [-> ->].
  destruct (chr c (skip r0)) as [[x r1]|] eqn:E.
  - apply chr_some in E as [-> E]. intros H. injection H as <- <-. destruct (skip_gap _ _ _ E) as (w & -> & G). exists w. split; [reflexivity|apply list_none; exact G].
  - destruct (p (skip r0)) as [[a r1]|] eqn:E1; [|discriminate]. destruct (many (comma p) r1) as [l0 r2] eqn:M.
    destruct (opt (chr 44) (skip r2)) as [[y r3]|] eqn:E3; [|discriminate]. destruct (chr c (skip r3)) as [[z r4]|] eqn:E4; [|discriminate].
    intros H. injection H as <- <-. apply chr_some in E4 as [-> E4]. apply (many_runs _ _ _ _ _ comma_progress) in M.
    assert (T : tail_text c r2 r4).
    { apply opt_some in E3 as [E3|(_ & _ & ->)].
      - apply chr_some in E3 as [_ E3]. destruct (skip_gap _ _ _ E3) as (w & -> & G). destruct (skip_gap _ _ _ E4) as (w' & -> & G'). exists w. split; [exact G|right]. eauto.
      - rewrite skip_skip in E4. destruct (skip_gap _ _ _ E4) as (w & -> & G). exists w. auto. }
    destruct (runs_text c _ _ _ _ M T) as (u & -> & K). apply sound in E1 as (t & E1 & Pt).
    assert (N : skip r0 <> []) by (rewrite E1, app_assoc; apply nonempty_app). destruct (skip_some_gap r0 N) as (w1 & E5 & G1). rewrite E1 in E5. subst r0.
    exists (w1 ++ t ++ u). split; [cbn [app]; rewrite <- ?app_assoc; reflexivity|]. apply K; assumption.
Qed.
End Sound.

Section Complete.
Definition follow (r : list Z) : Prop := match r with [] => True | c :: _ => In c (blanks ++ [47; 44; 93; 125]) end.
Lemma gap_follow w x r : gap w -> In x [44; 93; 125] -> follow (w ++ x :: r).
Proof.
  intros [|c w0 I _|body w0 _ _|body c w0 _ _ _] X; cbn [app follow]; apply in_app_iff; [right; cbn in X |- *; tauto|left; exact I|right; cbn; tauto|right; cbn; tauto].
Qed.
Variable c : Z.
Hypothesis closing : c = 93 \/ c = 125.
Variable m : nat.
Hypothesis complete : forall t a, P t a -> (length t <= m)%nat ->
  (forall r, follow r -> p (t ++ r) = Some (a, r)) /\ (forall r, skip (t ++ r) = t ++ r) /\ (forall r, chr c (t ++ r) = None).
Hypothesis empty : forall r, p (c :: r) = None.
Hypothesis progr : progress (comma p).

Lemma closing_in : In c [44; 93; 125].
Proof. destruct closing as [-> | ->]; cbn; tauto. Qed.
Lemma skip_closing r : skip (c :: r) = c :: r.
Proof. destruct closing as [-> | ->]; apply skip_none; reflexivity. Qed.
Lemma skip_comma r : skip (44 :: r) = 44 :: r.
Proof. apply skip_none; reflexivity. Qed.
Lemma comma_not r : chr 44 (c :: r) = None.
Proof. destruct closing as [-> | ->]; reflexivity. Qed.

Definition finishes (s : list Z) (r : list Z) : Prop := exists y s', opt (chr 44) (skip s) = Some (y, s') /\ skip s' = c :: r.

Lemma comma_at w s : gap w -> comma p (w ++ 44 :: s) = p (skip s).
Proof. intros G. unfold comma. rewrite (gap_skip _ _ G), skip_comma, chr_cons. reflexivity. Qed.
Lemma comma_end w r : gap w -> comma p (w ++ c :: r) = None.
Proof. intros G. unfold comma. rewrite (gap_skip _ _ G), skip_closing, comma_not. reflexivity. Qed.
Lemma finishes_end w r : gap w -> finishes (w ++ c :: r) r.
Proof. intros G. exists [], (c :: r). rewrite (gap_skip _ _ G), skip_closing. split; [apply opt_0, comma_not|reflexivity]. Qed.

Lemma text_runs t l : list_text P t l -> (length t <= m)%nat -> forall w r, gap w ->
  exists s, runs (comma p) (w ++ 44 :: t ++ c :: r) l s /\ finishes s r.
Proof.
  induction 1 as [w1 G1|w1 t a w2 G1 Pt G2|w1 t a w2 t' l G1 Pt G2 _ IH]; intros L w r G.
  - eexists. split; [apply runs_stop; rewrite (comma_at w _ G), (gap_skip _ _ G1), skip_closing; apply empty|].
    exists [44], (w1 ++ c :: r). split; [rewrite (gap_skip _ _ G), skip_comma; apply opt_1, chr_cons|]. rewrite (gap_skip _ _ G1). apply skip_closing.
  - rewrite !app_length in L. destruct (complete t a Pt ltac:(lia)) as (K & S & _). exists (w2 ++ c :: r). split; [|apply finishes_end; exact G2].
    eapply runs_step; [|apply runs_stop, comma_end; exact G2]. rewrite (comma_at w _ G), <- !app_assoc, (gap_skip _ _ G1), S. apply K. apply gap_follow; [exact G2|apply closing_in].
  - rewrite !app_length in L. destruct (complete t a Pt ltac:(lia)) as (K & S & _). destruct (IH ltac:(cbn in L; lia) w2 r G2) as (s & R & F). exists s. split; [|exact F].
    eapply runs_step; [|exact R]. rewrite (comma_at w _ G), <- !app_assoc, (gap_skip _ _ G1), S. cbn [app]. apply K. apply gap_follow; [exact G2|cbn; tauto].
Qed.

Lemma bracketed_ok o t l r : list_text P t l -> (length t <= m)%nat -> bracketed o c p ([o] ++ t ++ c :: r) = Some (l, r).
Proof.
  intros T L. unfold bracketed. cbn [app]. rewrite chr_cons. destruct T as [w1 G1|w1 t a w2 G1 Pt G2|w1 t a w2 t' l G1 Pt G2 T].
  - rewrite (gap_skip _ _ G1), skip_closing, chr_cons. reflexivity.
  - rewrite !app_length in L. destruct (complete t a Pt ltac:(lia)) as (K & S & C). rewrite <- !app_assoc, (gap_skip _ _ G1), S, C.
    rewrite K by (apply gap_follow; [exact G2|apply closing_in]). assert (R : runs (comma p) (w2 ++ c :: r) [] (w2 ++ c :: r)) by (apply runs_stop, comma_end; exact G2).
    apply (many_runs _ _ _ _ _ progr) in R. rewrite R. destruct (finishes_end w2 r G2) as (y & s' & -> & ->). rewrite chr_cons. reflexivity.
  - rewrite !app_length in L. destruct (complete t a Pt ltac:(lia)) as (K & S & C). rewrite <- !app_assoc, (gap_skip _ _ G1), S, C. cbn [app].
    rewrite K by (apply gap_follow; [exact G2|cbn; tauto]). destruct (text_runs t' l T ltac:(cbn in L; lia) w2 r G2) as (s & R & (y & s' & F1 & F2)).
    apply (many_runs _ _ _ _ _ progr) in R. rewrite R, F1, F2, chr_cons. reflexivity.
Qed.
End Complete.
End Bracketed.

(* ------------------------------------------------------------------ *)
(** * deserialize_any *)

Fixpoint des_list (l : list pair) : res (list jval) :=
  match l with [] => Ok [] | p :: l => v <- deserialize_any p ; r <- des_list l ; Ok (v :: r) end.
Fixpoint des_members (l : list (key * pair)) (acc : list (name * jval)) : res (list (name * jval)) :=
  match l with
  | [] => Ok acc
  | (k, p) :: l =>
      let ident := to_bytes (ident_of k) in
      v <- deserialize_any p ;
      match hget ident acc with Some _ => Err | None => des_members l (acc ++ [(ident, v)]) end
  end.
Lemma des_array l : deserialize_any (PArray l) = x <- des_list l ; Ok (JArray x).
Proof. reflexivity. Qed.
Lemma des_object l : deserialize_any (PObject l) = m <- des_members l [] ; Ok (JMap m).
Proof. reflexivity. Qed.

Section Unicode.
Variable letter part : Z -> bool.

(* ------------------------------------------------------------------ *)
(** * What is read is in the grammar *)

Definition sound_pair (t : list Z) (p : pair) : Prop := deserialize_any p <> Panic /\ forall v, deserialize_any p = Ok v -> value_text letter part t v.
Definition sound_member (t : list Z) (kp : key * pair) : Prop :=
  exists t1 w2 w3 t2, t = t1 ++ w2 ++ [58] ++ w3 ++ t2 /\ key_text letter part t1 (ident_of (fst kp)) /\ gap w2 /\ gap w3 /\ sound_pair t2 (snd kp).

Lemma sound_elements t l : list_text sound_pair t l -> des_list l <> Panic /\ forall vs, des_list l = Ok vs -> elements letter part t vs.
Proof.
  induction 1 as [w G|w1 t p w2 G1 [N S] G2|w1 t p w2 t' l G1 [N S] G2 _ [N' S']]; cbn [des_list].
  - split; [discriminate|]. intros vs H. apply Ok_inj in H. subst vs. apply elements_none. exact G.
  - destruct (deserialize_any p) as [v| |]; cbn [bind]; [|split; [discriminate|intros; discriminate]|congruence]. split; [discriminate|]. intros vs H. apply Ok_inj in H. subst vs.
    apply elements_one; auto.
  - destruct (deserialize_any p) as [v| |]; cbn [bind]; [|split; [discriminate|intros; discriminate]|congruence]. destruct (des_list l) as [r| |]; cbn [bind]; [|split; [discriminate|intros; discriminate]|congruence].
    split; [discriminate|]. intros vs H. apply Ok_inj in H. subst vs. apply elements_more; auto.
Qed.

Lemma hget_none_not (k : name) (m : list (name * jval)) : hget k m = None <-> ~ In k (map fst m).
Proof.
  split.
  - intros H I. apply in_map_iff in I as ([k' v] & <- & I). cbn in H. revert H I. induction m as [|[k2 v2] m IH]; cbn; [tauto|].
    destruct (eqb_bytes k2 k') eqn:E; [discriminate|]. intros H [I|I]; [|auto]. injection I as -> ->. rewrite (proj2 (eqb_bytes_eq k' k') eq_refl) in E. discriminate.
  - intros H. destruct (hget k m) as [v|] eqn:E; [|reflexivity]. apply hget_in in E. destruct H. apply in_map_iff. exists (k, v). auto.
Qed.
Lemma nodup_snoc (l : list name) k : NoDup l -> ~ In k l -> NoDup (l ++ [k]).
Proof.
  intros N H. induction N as [|x l Hx N IH]; cbn; [constructor; [tauto|constructor]|]. constructor; [|apply IH; intros I; apply H; right; exact I].
  rewrite in_app_iff. intros [I|[<- |[]]]; [auto|]. apply H. left. reflexivity.
Qed.

Lemma sound_member_text w1 t kp w2 v : gap w1 -> sound_member t kp -> gap w2 -> deserialize_any (snd kp) = Ok v -> member letter part (w1 ++ t ++ w2) (to_bytes (ident_of (fst kp))) v.
Proof.
  intros G1 (t1 & w3 & w4 & t2 & -> & K & G3 & G4 & (_ & S)) G2 E. rewrite <- !app_assoc. apply member_is; auto.
Qed.
Lemma sound_members t l : list_text sound_member t l -> forall acc, des_members l acc <> Panic /\
  forall m, des_members l acc = Ok m -> exists m', m = acc ++ m' /\ members letter part t m' /\ (NoDup (map fst acc) -> NoDup (map fst m)).
Proof.
  induction 1 as [w G|w1 t [k p] w2 G1 S G2|w1 t [k p] w2 t' l G1 S G2 _ IH]; intros acc; cbn [des_members].
  - split; [discriminate|]. intros m H. apply Ok_inj in H. subst m. exists []. rewrite app_nil_r. split; [reflexivity|]. split; [apply members_none; exact G|auto].
  - assert (N : deserialize_any p <> Panic) by (destruct S as (? & ? & ? & ? & _ & _ & _ & _ & (N & _)); exact N).
    destruct (deserialize_any p) as [v| |] eqn:E; cbn [bind]; [|split; [discriminate|intros; discriminate]|congruence].
    destruct (hget (to_bytes (ident_of k)) acc) eqn:H; (split; [discriminate|]); intros m Hm; [discriminate|]. apply Ok_inj in Hm. subst m. eexists. split; [reflexivity|]. split.
    + apply members_one. exact (sound_member_text w1 t (k, p) w2 v G1 S G2 E).
    + intros Na. rewrite map_app. apply nodup_snoc; [exact Na|]. apply hget_none_not. exact H.
  - assert (N : deserialize_any p <> Panic) by (destruct S as (? & ? & ? & ? & _ & _ & _ & _ & (N & _)); exact N).
    destruct (deserialize_any p) as [v| |] eqn:E; cbn [bind]; [|split; [discriminate|intros; discriminate]|congruence].
    destruct (hget (to_bytes (ident_of k)) acc) eqn:H; [split; [discriminate|intros; discriminate]|]. destruct (IH (acc ++ [(to_bytes (ident_of k), v)])) as [NP K]. split; [exact NP|].
    intros m Hm. destruct (K m Hm) as (m' & -> & M & ND). eexists. split; [rewrite <- app_assoc; reflexivity|]. split.
    + pose proof (sound_member_text w1 t (k, p) w2 v G1 S G2 E) as Mt. replace (w1 ++ t ++ w2 ++ [44] ++ t') with ((w1 ++ t ++ w2) ++ [44] ++ t') by (rewrite <- !app_assoc; reflexivity).
      apply members_more; assumption.
    + intros Na. apply ND. rewrite map_app. apply nodup_snoc; [exact Na|]. apply hget_none_not. exact H.
Qed.

Lemma value_some n : forall s p r, value letter part n s = Some (p, r) -> exists t, s = t ++ r /\ t <> [] /\ sound_pair t p.
Proof.
  induction n as [|n IH]; intros s p r H; [discriminate|]. cbn [value] in H. unfold value_rule in H.
  destruct (lit (txt "null") s) as [[a r0]|] eqn:E1.
  { injection H as <- <-. apply lit_some in E1 as [_ ->]. eexists. split; [reflexivity|]. split; [discriminate|]. split; [discriminate|]. intros v H. apply Ok_inj in H. subst v. apply text_null. }
  destruct (lit (txt "undefined") s) as [[a r0]|] eqn:E2.
  { injection H as <- <-. apply lit_some in E2 as [_ ->]. eexists. split; [reflexivity|]. split; [discriminate|]. split; [discriminate|]. intros v H. apply Ok_inj in H. subst v. apply text_undefined. }
  destruct (alt (lit (txt "true")) (lit (txt "false")) s) as [[a r0]|] eqn:E3.
  { injection H as <- <-. apply alt_some in E3 as [E3|[_ E3]]; apply lit_some in E3 as [-> ->]; (eexists; split; [reflexivity|]; split; [discriminate|]; split; [discriminate|]; intros v H; apply Ok_inj in H; subst v);
      [apply text_true|apply text_false]. }
  clear E1 E2 E3. destruct (string_rule s) as [[[a l] r0]|] eqn:E4.
  { injection H as <- <-. apply string_some in E4 as (-> & q & body & Q & -> & T). eexists. split; [reflexivity|]. split; [discriminate|]. apply toks_pieces in T as [NP T].
    unfold sound_pair. cbn [deserialize_any]. destruct (parse_string l) as [x| |]; cbn [bind]; [|split; [discriminate|intros; discriminate]|congruence]. split; [discriminate|].
    intros v H. apply Ok_inj in H. subst v. eapply text_string. exists q. split; [exact Q|]. split; [reflexivity|]. apply T. reflexivity. }
  clear E4. destruct (number s) as [[a r0]|] eqn:E5.
  { injection H as <- <-. apply number_some in E5 as [-> N]. exists a. split; [reflexivity|]. pose proof (numeric_value a N) as [NP K]. split.
    - intros ->. inversion N as [sg x ds Sg Hx Nd F Eq|sg i dot f ex e Sg F Ex D Eq|sg w Sg W Eq].
      + apply app_eq_nil in Eq as [_ Eq]. discriminate.
      + apply app_eq_nil in Eq as [_ Eq]. apply app_eq_nil in Eq as [-> Eq]. apply app_eq_nil in Eq as [-> Eq]. destruct D as [[D _]|(_ & W & _)]; [discriminate|]. apply whole_cons in W as (? & ? & W & _). discriminate.
      + apply app_eq_nil in Eq as [_ ->]. destruct W; discriminate.
    - change (number_res a) with (deserialize_any (PNumber a)) in *. split; [exact NP|]. intros v Hv. destruct (K v Hv) as [(i & I & ->)|(b & I & ->)]; [apply text_int|apply text_double]; exact I. }
  clear E5. destruct (bracketed 123 125 (pair_rule letter part (value letter part n)) s) as [[l r0]|] eqn:E6.
  { injection H as <- <-. apply bracketed_some with (P := sound_member) in E6 as (t & -> & L).
    - exists ([123] ++ t ++ [125]). split; [rewrite <- !app_assoc; reflexivity|]. split; [discriminate|]. apply sound_members with (acc := []) in L as [NP K]. unfold sound_pair. rewrite des_object.
      destruct (des_members l []) as [m| |]; cbn [bind]; [|split; [discriminate|intros; discriminate]|congruence]. split; [discriminate|]. intros v H. apply Ok_inj in H. subst v.
      destruct (K m eq_refl) as (m' & -> & M & ND). apply text_map; [exact M|]. apply ND. constructor.
    - intros s0 [k p0] r1 H. unfold pair_rule in H. destruct (key_rule letter part s0) as [[k0 r2]|] eqn:Ek; [|discriminate]. apply key_some in Ek as (t1 & -> & Kt).
      destruct (chr 58 (skip r2)) as [[x r3]|] eqn:Ec; [|discriminate]. apply chr_some in Ec as [_ Ec]. destruct (skip_gap _ _ _ Ec) as (w2 & -> & G2).
      destruct (value letter part n (skip r3)) as [[v r4]|] eqn:Ev; [|discriminate]. injection H as <- <- <-. apply IH in Ev as (t2 & Ev & Nt & S).
      assert (Ns : skip r3 <> []) by (rewrite Ev; destruct t2; [congruence|discriminate]). destruct (skip_some_gap r3 Ns) as (w3 & E3 & G3). rewrite Ev in E3. subst r3.
      exists (t1 ++ w2 ++ [58] ++ w3 ++ t2). split; [rewrite <- !app_assoc; cbn [app]; rewrite <- ?app_assoc; reflexivity|]. exists t1, w2, w3, t2. repeat split; auto; apply S. }
  clear E6. destruct (bracketed 91 93 (value letter part n) s) as [[l r0]|] eqn:E7; [|discriminate].
  injection H as <- <-. apply bracketed_some with (P := sound_pair) in E7 as (t & -> & L).
  - exists ([91] ++ t ++ [93]). split; [rewrite <- !app_assoc; reflexivity|]. split; [discriminate|]. apply sound_elements in L as [NP K]. unfold sound_pair. rewrite des_array.
    destruct (des_list l) as [vs| |]; cbn [bind]; [|split; [discriminate|intros; discriminate]|congruence]. split; [discriminate|]. intros v H. apply Ok_inj in H. subst v. apply text_array. apply K. reflexivity.
  - intros s0 p0 r1 H. apply IH in H as (t & -> & _ & S). eauto.
Qed.

Lemma skip_end r : skip r = [] -> last_gap r.
Proof. intros H. destruct (skip_some r) as (w & E & K). rewrite H, app_nil_r in E. subst w. destruct K as [G|[_ G]]; [left; exact G|exact G]. Qed.

Lemma from_str_sound s : from_str letter part s <> Panic /\ forall v, from_str letter part s = Ok v -> text_of letter part s v.
Proof.
  unfold from_str, text_rule. destruct (value letter part (S (length s)) (skip s)) as [[p r]|] eqn:E; [|split; [discriminate|intros; discriminate]].
  apply value_some in E as (t & E & N & [NP S]). destruct (skip r) eqn:Er; [|split; [discriminate|intros; discriminate]]. split; [exact NP|]. intros v H.
  assert (Ns : skip s <> []) by (rewrite E; destruct t; [congruence|discriminate]). destruct (skip_some_gap s Ns) as (w & Es & G). rewrite E in Es. exists w, t, r. split; [exact Es|]. split; [exact G|]. split; [apply S; exact H|].
  apply skip_end. exact Er.
Qed.

(* ------------------------------------------------------------------ *)
(** * What is in the grammar is read *)

Lemma head_skip c r : ~ In c (blanks ++ [47]) -> skip (c :: r) = c :: r.
Proof.
  intros N. apply skip_none. rewrite in_app_iff in N. destruct (blank_cases c r) as [(-> & _)|[(-> & _)|E]]; [destruct N; right; left; reflexivity|destruct N; right; left; reflexivity|].
  rewrite E. destruct (whitespace c) eqn:W; [|reflexivity]. destruct N. left. apply whitespace_in. exact W.
Qed.
Lemma numeric_head a : numeric a -> exists c r, a = c :: r /\ (c = 43 \/ c = 45 \/ c = 46 \/ is_digit c \/ c = 73 \/ c = 78).
Proof.
  assert (G : forall sg w, sign sg -> (exists c r, w = c :: r /\ (c = 46 \/ is_digit c \/ c = 73 \/ c = 78)) -> exists c r, sg ++ w = c :: r /\ (c = 43 \/ c = 45 \/ c = 46 \/ is_digit c \/ c = 73 \/ c = 78)).
  { intros sg w [-> | [-> | ->]] (c & r & -> & H); cbn [app]; eexists _, _; (split; [reflexivity|]); tauto. }
  intros [sg x ds Sg Hx N F|sg i dot f ex e Sg F Ex D|sg w Sg W]; apply G; auto.
  - eexists _, _. split; [reflexivity|]. unfold is_digit. lia.
  - destruct D as [[-> [W|[-> N]]]|(-> & W & _)].
    + apply whole_cons in W as (c & r & -> & Dc & _). cbn [app]. eexists _, _. split; [reflexivity|]. auto.
    + cbn [app]. eexists _, _. split; [reflexivity|]. auto.
    + apply whole_cons in W as (c & r & -> & Dc & _). cbn [app]. eexists _, _. split; [reflexivity|]. auto.
  - destruct W as [-> | ->]; eexists _, _; (split; [reflexivity|]); auto.
Qed.
Lemma follow_number r : follow r -> stop after_number r.
Proof.
  destruct r as [|c r]; [intros _; exact Logic.I|]. unfold follow, stop. intros I. apply not_true_is_false. intros H.
  assert (E : existsb (Z.eqb c) (blanks ++ [47; 44; 93; 125]) = true) by (apply existsb_exists; exists c; split; [exact I|apply Z.eqb_refl]).
  unfold after_number, hex_digit, digit in H. unfold blanks, line_ends in E. cbn [existsb app] in E. lia.
Qed.
(** the rules before the one for numbers and strings *)
Lemma words_none c r : c <> 110 -> c <> 117 -> c <> 116 -> c <> 102 ->
  lit (txt "null") (c :: r) = None /\ lit (txt "undefined") (c :: r) = None /\ alt (lit (txt "true")) (lit (txt "false")) (c :: r) = None.
Proof.
  intros N1 N2 N3 N4. split; [apply lit_none; exact N1|]. split; [apply lit_none; exact N2|]. apply alt_2; [apply lit_none; exact N3|apply lit_none; exact N4].
Qed.

Definition good_value (t : list Z) (p : pair) : Prop :=
  (exists c t', t = c :: t' /\ ~ In c (blanks ++ [47; 93])) /\ forall n r, (length t < n)%nat -> follow r -> value letter part n (t ++ r) = Some (p, r).
Definition good_member (t : list Z) (kp : key * pair) : Prop :=
  (exists c t', t = c :: t' /\ ~ In c (blanks ++ [47; 125])) /\ forall n r, (length t < n)%nat -> follow r -> pair_rule letter part (value letter part n) (t ++ r) = Some (kp, r).

Lemma not_in_app (c x y : Z) l : ~ In c (l ++ [x; y]) -> ~ In c (l ++ [x]) /\ c <> y.
Proof. intros N. rewrite in_app_iff in *. cbn in *. split; [tauto|]. intros ->. tauto. Qed.

Lemma value_string n q body l r : q = 34 \/ q = 39 -> toks q body l -> value letter part (S n) (([q] ++ body ++ [q]) ++ r) = Some (PString ([q] ++ body ++ [q]) l, r).
Proof.
  intros Q T. cbn [value]. unfold value_rule. rewrite (string_ok q body l r Q T). cbn [app].
  destruct (words_none q ((body ++ [q]) ++ r)) as (-> & -> & ->); [lia..|]. reflexivity.
Qed.
Lemma value_number n a r : numeric a -> follow r -> value letter part (S n) (a ++ r) = Some (PNumber a, r).
Proof.
  intros N F. cbn [value]. unfold value_rule. rewrite (number_ok a r N (follow_number r F)). destruct (numeric_head a N) as (c & t & -> & H). cbn [app]. unfold is_digit in H.
  destruct (words_none c (t ++ r)) as (-> & -> & ->); [lia..|]. rewrite string_none by lia. reflexivity.
Qed.
Lemma number_head a : numeric a -> exists c t', a = c :: t' /\ ~ In c (blanks ++ [47; 93]).
Proof.
  intros N. destruct (numeric_head a N) as (c & t & -> & H). exists c, t. split; [reflexivity|]. apply out. apply not_true_is_false. intros E.
  unfold blanks, line_ends in E. cbn [existsb app] in E. unfold is_digit in H. lia.
Qed.

Hypothesis apart : letters_apart letter part.

Lemma value_progress n : progress (comma (value letter part n)).
Proof. apply comma_progress with (P := sound_pair). intros s a r H. apply value_some in H as (t & -> & _ & S). eauto. Qed.
Lemma pair_progress n : progress (comma (pair_rule letter part (value letter part n))).
Proof.
  apply comma_progress with (P := fun _ _ => True). intros s [k p] r H. unfold pair_rule in H. destruct (key_rule letter part s) as [[k0 r2]|] eqn:Ek; [|discriminate]. apply key_some in Ek as (t1 & -> & _).
  destruct (chr 58 (skip r2)) as [[x r3]|] eqn:Ec; [|discriminate]. apply chr_some in Ec as [_ Ec]. destruct (skip_gap _ _ _ Ec) as (w2 & -> & _).
  destruct (value letter part n (skip r3)) as [[v r4]|] eqn:Ev; [|discriminate]. injection H as <- <- <-. apply value_some in Ev as (t2 & Ev & _).
  destruct (skip_some r3) as (w & E3 & _). rewrite Ev in E3. subst r3. exists (t1 ++ w2 ++ [58] ++ w ++ t2). split; [rewrite <- !app_assoc; reflexivity|exact Logic.I].
Qed.
Lemma value_closing n r : value letter part n (93 :: r) = None.
Proof. destruct n; [reflexivity|]. cbn [value]. unfold value_rule. reflexivity. Qed.
Lemma pair_closing n r : pair_rule letter part (value letter part n) (125 :: r) = None.
Proof. unfold pair_rule. rewrite (key_not_bracket letter part apart). reflexivity. Qed.

Lemma value_array n t l r : list_text good_value t l -> (length t < n)%nat -> value letter part (S n) (([91] ++ t ++ [93]) ++ r) = Some (PArray l, r).
Proof.
  intros T L. cbn [value]. unfold value_rule.
  assert (B : bracketed 91 93 (value letter part n) ([91] ++ t ++ 93 :: r) = Some (l, r)).
  { apply (bracketed_ok (value letter part n) good_value 93 (or_introl eq_refl) (length t)); auto; [|apply value_closing|apply value_progress].
    intros t0 p ((c & t' & -> & H) & G) L0. apply not_in_app in H as [H1 H2]. split; [intros r0 F; apply G; [lia|exact F]|]. split; intros r0; cbn [app]; [apply head_skip; exact H1|apply chr_none; exact H2]. }
  replace (([91] ++ t ++ [93]) ++ r) with ([91] ++ t ++ 93 :: r) by (rewrite <- !app_assoc; reflexivity). rewrite B. cbn [app]. reflexivity.
Qed.
Lemma value_object n t l r : list_text good_member t l -> (length t < n)%nat -> value letter part (S n) (([123] ++ t ++ [125]) ++ r) = Some (PObject l, r).
Proof.
  intros T L. cbn [value]. unfold value_rule.
  assert (B : bracketed 123 125 (pair_rule letter part (value letter part n)) ([123] ++ t ++ 125 :: r) = Some (l, r)).
  { apply (bracketed_ok (pair_rule letter part (value letter part n)) good_member 125 (or_intror eq_refl) (length t)); auto; [|apply pair_closing|apply pair_progress].
    intros t0 p ((c & t' & -> & H) & G) L0. apply not_in_app in H as [H1 H2]. split; [intros r0 F; apply G; [lia|exact F]|]. split; intros r0; cbn [app]; [apply head_skip; exact H1|apply chr_none; exact H2]. }
  replace (([123] ++ t ++ [125]) ++ r) with ([123] ++ t ++ 125 :: r) by (rewrite <- !app_assoc; reflexivity). rewrite B. cbn [app]. reflexivity.
Qed.
Lemma gap_follow_key w r : gap w -> follow_key (w ++ 58 :: r).
Proof.
  intros [|c w0 I _|body w0 _ _|body c w0 _ _ _]; cbn [app follow_key]; apply in_app_iff; [right; cbn; tauto|left; exact I|right; cbn; tauto|right; cbn; tauto].
Qed.

Scheme value_text_mut := Minimality for value_text Sort Prop
  with elements_mut := Minimality for elements Sort Prop
  with members_mut := Minimality for members Sort Prop
  with member_mut := Minimality for member Sort Prop.

Lemma value_complete t v : value_text letter part t v -> exists p, deserialize_any p = Ok v /\ good_value t p.
Proof.
  apply (value_text_mut letter part
    (fun t v => exists p, deserialize_any p = Ok v /\ good_value t p)
    (fun t l => exists ps, des_list ps = Ok l /\ list_text good_value t ps)
    (fun t m => exists ps, list_text good_member t ps /\ forall acc, NoDup (map fst (acc ++ m)) -> des_members ps acc = Ok (acc ++ m))
    (fun t k v => exists w1 t0 kp w2, t = w1 ++ t0 ++ w2 /\ gap w1 /\ gap w2 /\ to_bytes (ident_of (fst kp)) = k /\ deserialize_any (snd kp) = Ok v /\ good_member t0 kp)); clear t v.
  - exists PNull. split; [reflexivity|]. split; [eexists _, _; split; [reflexivity|apply out; reflexivity]|]. intros [|n] r L F; [lia|]. reflexivity.
  - exists PUndefined. split; [reflexivity|]. split; [eexists _, _; split; [reflexivity|apply out; reflexivity]|]. intros [|n] r L F; [lia|]. reflexivity.
  - exists (PBoolean (txt "true")). split; [reflexivity|]. split; [eexists _, _; split; [reflexivity|apply out; reflexivity]|]. intros [|n] r L F; [lia|]. reflexivity.
  - exists (PBoolean (txt "false")). split; [reflexivity|]. split; [eexists _, _; split; [reflexivity|apply out; reflexivity]|]. intros [|n] r L F; [lia|]. reflexivity.
  - intros t body s (q & Q & -> & P). apply pieces_toks in P as (l & T & E). exists (PString ([q] ++ body ++ [q]) l). split; [cbn [deserialize_any]; rewrite E; reflexivity|]. split.
    + eexists _, _. split; [reflexivity|]. destruct Q as [-> | ->]; apply out; reflexivity.
    + intros [|n] r L F; [lia|]. apply value_string; assumption.
  - intros t i I. apply int_value in I as (N & E1 & E2). exists (PNumber t). split; [cbn [deserialize_any]; rewrite E1, E2; reflexivity|]. split; [apply number_head; exact N|].
    intros [|n] r L F; [lia|]. apply value_number; assumption.
  - intros t b I. apply double_value in I as (N & E1 & E2). exists (PNumber t). split; [cbn [deserialize_any]; rewrite E1, E2; reflexivity|]. split; [apply number_head; exact N|].
    intros [|n] r L F; [lia|]. apply value_number; assumption.
  - intros t l _ (ps & E & T). exists (PArray ps). split; [rewrite des_array, E; reflexivity|]. split; [eexists _, _; split; [reflexivity|apply out; reflexivity]|].
    intros [|n] r L F; [lia|]. apply value_array; [exact T|]. rewrite !app_length in L. cbn in L. lia.
  - intros t m _ (ps & T & E) N. exists (PObject ps). split; [rewrite des_object, E by exact N; reflexivity|]. split; [eexists _, _; split; [reflexivity|apply out; reflexivity]|].
    intros [|n] r L F; [lia|]. apply value_object; [exact T|]. rewrite !app_length in L. cbn in L. lia.
  - intros w G. exists []. split; [reflexivity|]. apply list_none. exact G.
  - intros w1 t v w2 G1 _ (p & E & H) G2. exists [p]. split; [cbn [des_list]; rewrite E; reflexivity|]. apply list_one; assumption.
  - intros w1 t v w2 t' l G1 _ (p & E & H) G2 _ (ps & E' & T). exists (p :: ps). split; [cbn [des_list]; rewrite E, E'; reflexivity|]. apply list_more; assumption.
  - intros w G. exists []. split; [apply list_none; exact G|]. intros acc _. rewrite app_nil_r. reflexivity.
  - intros t k v _ (w1 & t0 & [k0 p] & w2 & -> & G1 & G2 & <- & E & H). exists [(k0, p)]. split; [apply list_one; assumption|]. intros acc N. cbn [des_members fst snd] in *. rewrite E. cbn [bind].
    rewrite (proj2 (hget_none_not _ acc)); [reflexivity|]. rewrite map_app in N. cbn in N. intros I. apply NoDup_remove_2 in N. rewrite app_nil_r in N. exact (N I).
  - intros t k v t' l _ (w1 & t0 & [k0 p] & w2 & -> & G1 & G2 & <- & E & H) _ (ps & T & K). exists ((k0, p) :: ps). split.
    + replace ((w1 ++ t0 ++ w2) ++ [44] ++ t') with (w1 ++ t0 ++ w2 ++ [44] ++ t') by (rewrite <- !app_assoc; reflexivity). apply list_more; assumption.
    + intros acc N. cbn [des_members fst snd] in *. rewrite E. cbn [bind]. rewrite (proj2 (hget_none_not _ acc)).
      * rewrite K by (rewrite <- app_assoc; exact N). rewrite <- app_assoc. reflexivity.
      * rewrite map_app in N. cbn in N. intros I. apply NoDup_remove_2 in N. apply N. apply in_app_iff. left. exact I.
  - intros w1 t k w2 w3 t' v w4 G1 K G2 G3 _ (p & E & ((c & t2 & Et & H) & G)) G4. destruct (key_ok letter part apart t k K) as (k0 & <- & Kr).
    exists w1, (t ++ w2 ++ [58] ++ w3 ++ t'), (k0, p), w4. split; [rewrite <- !app_assoc; reflexivity|]. split; [exact G1|]. split; [exact G4|]. split; [reflexivity|]. split; [exact E|]. split.
    + destruct (key_head letter part apart t _ K) as (d & t3 & -> & Hd). cbn [app]. eexists _, _. split; [reflexivity|exact Hd].
    + intros n r L F. unfold pair_rule. rewrite <- !app_assoc. rewrite Kr by (apply gap_follow_key; exact G2). rewrite (gap_skip _ _ G2). cbn [app]. rewrite (head_skip 58) by (apply out; reflexivity). rewrite chr_cons.
      rewrite (gap_skip _ _ G3). subst t'. cbn [app]. apply not_in_app in H as [H _]. rewrite (head_skip c) by exact H. change (c :: t2 ++ r) with ((c :: t2) ++ r). rewrite G; [reflexivity| |exact F].
      rewrite !app_length in L. cbn in L |- *. lia.
Qed.

Lemma last_gap_follow w : last_gap w -> follow w.
Proof.
  intros [G|(w' & body & -> & G & _)].
  - destruct G as [|c w0 I _|body w0 _ _|body c w0 _ _ _]; cbn [app follow]; [exact Logic.I|..]; apply in_app_iff; [left; exact I|right; cbn; tauto|right; cbn; tauto].
  - destruct G as [|c w0 I _|body' w0 _ _|body' c w0 _ _ _]; cbn [app follow]; apply in_app_iff; [right; cbn; tauto|left; exact I|right; cbn; tauto|right; cbn; tauto].
Qed.

Lemma from_str_complete s v : text_of letter part s v -> from_str letter part s = Ok v.
Proof.
  intros (w1 & t & w2 & -> & G1 & V & G2). apply value_complete in V as (p & E & ((c & t' & -> & H) & G)). unfold from_str, text_rule.
  rewrite (gap_skip _ _ G1). cbn [app]. apply not_in_app in H as [H _]. rewrite (head_skip c) by exact H. change (c :: t' ++ w2) with ((c :: t') ++ w2).
  rewrite G; [|rewrite !app_length; cbn; lia|apply last_gap_follow; exact G2]. rewrite (last_gap_skip w2 G2). exact E.
Qed.

Theorem reads_texts s v : from_str letter part s = Ok v <-> text_of letter part s v.
Proof. split; [apply from_str_sound|apply from_str_complete]. Qed.
End Unicode.
