(** Loaded documents meet the conditions of C14. *)
From Coq Require Import String.
From Verif Require Import Base FloatModel FloatProofs CompactionSpec StringCompactionModel StringCompactionProofs LinkedModel LinkedSpec DocModel
  DiffSpec DiffEditSpec DiffProofs ArchiveModel JsonModel JsonSpec JsonProofs ValidModel ValidSpec ValidProofs LoadSpec LoadProofs EmbedSpec.

(* ------------------------------------------------------------------ *)
(** * Lists *)

Lemma uniform {A} (Q : A -> nat -> Prop) l : (forall a, In a l -> exists N, forall n, (N <= n)%nat -> Q a n) ->
  exists N, forall n, (N <= n)%nat -> forall a, In a l -> Q a n.
Proof.
  induction l as [|a l IH]; intros H; [exists O; intros n _ a []|].
  destruct (H a (or_introl eq_refl)) as [N1 H1]. destruct IH as [N2 H2]; [intros; apply H; right; assumption|].
  exists (Nat.max N1 N2). intros n Hn x [<-|I]; [apply H1; lia|apply H2; [lia|exact I]].
Qed.

Lemma choice {A B} (R : A -> B -> Prop) l : (forall a, In a l -> exists b, R a b) -> exists l', Forall2 R l l'.
Proof.
  induction l as [|a l IH]; intros H; [exists []; constructor|]. destruct (H a (or_introl eq_refl)) as [b Hb].
  destruct IH as [l' F]; [intros; apply H; right; assumption|]. exists (b :: l'). constructor; assumption.
Qed.

Lemma forall2_map {A B C} (R : A -> B -> Prop) (f : A -> C) (g : B -> C) l l' : (forall a b, R a b -> f a = g b) -> Forall2 R l l' -> map f l = map g l'.
Proof. intros H. induction 1; cbn; [reflexivity|]. f_equal; auto. Qed.

Lemma forall2_impl {A B} (R R' : A -> B -> Prop) l l' : (forall a b, R a b -> R' a b) -> Forall2 R l l' -> Forall2 R' l l'.
Proof. intros H. induction 1; constructor; auto. Qed.

Lemma forall2_in_r {A B} (R : A -> B -> Prop) l l' b : Forall2 R l l' -> In b l' -> exists a, In a l /\ R a b.
Proof.
  induction 1 as [|x y l l' H F IH]; [intros []|]. intros [<-|I]; [exists x; split; [left; reflexivity|exact H]|].
  destruct (IH I) as (a & I' & Ha). exists a. split; [right|]; assumption.
Qed.

Lemma forall2_hget {A B} (R : A -> B -> Prop) (m : hmap A) (m' : hmap B) key : Forall2 (fun a b => fst a = fst b /\ R (snd a) (snd b)) m m' ->
  match hget key m, hget key m' with Some a, Some b => R a b | None, None => True | _, _ => False end.
Proof.
  induction 1 as [|[x a] [y b] m m' [E H] F IH]; cbn in *; [exact I|]. subst y. destruct (eqb_bytes x key); [exact H|exact IH].
Qed.

Lemma forall2_numbered {A B} (R : Z * A -> Z * B -> Prop) (m : hmap (Z * A)) (m' : hmap (Z * B)) :
  Forall2 (fun a b => fst a = fst b /\ fst (snd a) = fst (snd b) /\ R (snd a) (snd b)) m m' -> numbered m -> numbered m'.
Proof.
  intros F (N1 & N2 & N3). assert (E1 : map fst m = map fst m') by (eapply forall2_map; [|exact F]; intuition).
  assert (E2 : map (fun e => fst (snd e)) m = map (fun e => fst (snd e)) m') by (eapply forall2_map; [|exact F]; intuition).
  assert (L : zlen m' = zlen m) by (symmetry; apply (forall2_zlen _ _ _ F)).
  split; [rewrite <- E1; exact N1|]. split; [rewrite <- E2; exact N2|]. rewrite L. apply Forall_forall. intros e I.
  apply (in_map (fun e => fst (snd e))) in I. rewrite <- E2 in I. apply in_map_iff in I as (e' & E & I). rewrite Forall_forall in N3. rewrite <- E. apply (N3 _ I).
Qed.

Lemma numbered_few {A} (m : hmap (Z * A)) : numbered m -> zlen m <= 2 ^ 62 -> few_numbers m.
Proof. intros (_ & _ & F) L key e G. apply hget_in in G. rewrite Forall_forall in F. specialize (F _ G). cbn in F. lia. Qed.

(* ------------------------------------------------------------------ *)
(** * Definitions *)

Lemma def_exists d : well_numbered d -> exists N, forall n, (N <= n)%nat -> exists e, is_def n d e /\ wf_defT n e.
Proof.
  induction 1 as [d Nm Nr HC IC HM IM].
  destruct (uniform (fun (a : name * (Z * ldefval def)) n => exists b : name * (Z * ldefval (defT n)),
      fst a = fst b /\ fst (snd a) = fst (snd b) /\ is_defval (is_def n) (snd (snd a)) (snd (snd b)) /\
      match snd (snd b) with DMil e _ => wf_defT n e | _ => True end) (ld_members d)) as [N H].
  - intros [key [id v]] I. destruct v as [p vt|d'|d' u].
    + exists O. intros n _. exists (key, (id, DParam p vt)). cbn. auto.
    + destruct (IC _ _ _ I) as [N H]. exists N. intros n Hn. destruct (H n Hn) as (e & He & _). exists (key, (id, DCil e)). cbn. auto.
    + destruct (IM _ _ _ _ I) as [N H]. exists N. intros n Hn. destruct (H n Hn) as (e & He & We). exists (key, (id, DMil e u)). cbn. auto.
  - exists (S N). intros n Hn. destruct n as [|n]; [lia|]. specialize (H n ltac:(lia)). apply choice in H as [ms F].
    exists (LDef ms (ld_refs d) (ld_enum d) (ld_old d) (ld_ref_old d)). split.
    + cbn. repeat (split; [|auto]). eapply forall2_impl; [|exact F]. cbn. intuition.
    + split; [|split].
      * eapply (forall2_numbered (fun _ _ => True)); [|exact Nm]. eapply forall2_impl; [|exact F]. cbn. intuition.
      * exact Nr.
      * apply Forall_forall. intros b I. destruct (forall2_in_r _ _ _ _ F I) as (a & _ & _ & _ & _ & W). exact W.
Qed.

(* ------------------------------------------------------------------ *)
(** * Items *)

Section Lists.
Variable mem : Z -> list Z.
Variable root : root_obj.
Variable counted : bool.

Definition list_ok (ids : list Z) (next : Z) : Prop :=
  NoDup ids /\ Forall u64_range ids /\ u64_range next /\ zlen ids < 2 ^ 62 /\ (counted = true -> Forall (fun id => id < next) ids).
Notation sound := (item_sound (wf_param mem) wf_ref list_ok).
Notation few := (fun n => n <= 2 ^ 62).

Lemma allows_acceptable vt p : allows_param vt p -> acceptable vt (param_qv_type p) = true.
Proof.
  destruct p as [q|q|q|q|q|q|q]; destruct q; cbn; intros H; try (destruct vt; reflexivity); destruct H as [-> | ->]; reflexivity.
Qed.
Lemma allows_acceptable_ref vt (q : qv (list Z)) : allows vt q -> acceptable vt (qv_type_of q) = true.
Proof. destruct q; cbn; intros H; try (destruct vt; reflexivity); destruct H as [-> | ->]; reflexivity. Qed.

Lemma list_exists n : forall d e l next, is_def n d e -> wf_defT n e -> def_few few d -> def_valid true d ->
  list_ok (map fst l) next -> (forall id c, In (id, c) l -> sound c) -> (forall id c, In (id, c) l -> item_valid root false d c) ->
  exists l', is_mlist n (l, next) l' /\ typedT mem n l' e /\ (counted = true -> countedT n l').
Proof.
  induction n as [|n IH]; intros d e l next; [intros []|]. cbn [is_def wf_defT is_mlist typedT countedT fst snd].
  intros (Fm & Er & Ee & Eo & Ero) (Nm & Nr & Wi) Hf Hd (Q1 & Q2 & Q3 & Q4 & Q5) Hs Hv.
  inversion Hf as [d0 Hf1 Hf2 Hf3 Hf4 Ed]; subst d. inversion Hd as [d1 V1 V2 V3 V4 V5 V6 V7 Ed]; subst d1. cbn [undef] in *.
  assert (Fm' : Forall2 (fun a b => fst a = fst b /\ (fst (snd a) = fst (snd b) /\ is_defval (is_def n) (snd (snd a)) (snd (snd b)))) (ld_members d0) (ld_members e)) by exact Fm.
  (* one value *)
  assert (Val1 : forall c, sound c -> item_valid root false (Def d0) c -> forall a, In a (ci_values c) -> exists b : name * lval (mlistT n),
      fst a = fst b /\ is_value (is_mlist n) (snd a) (snd b) /\ typed_value mem (typedT mem n) (ld_members e) (fst b) (snd b) /\
      (counted = true -> forall l1, snd b = LMil (Some l1) -> countedT n l1)).
  { intros c S V [key v] I. cbn [fst snd]. inversion V as [d1 c1 _ Vv E1 E2]; subst d1 c1. destruct (Vv _ _ I) as (_ & id & dv & G & T).
    pose proof (forall2_hget (fun a b => fst a = fst b /\ is_defval (is_def n) (snd a) (snd b)) _ _ key Fm') as M. rewrite G in M.
    match type of M with match ?x with _ => _ end => destruct x as [[id' w]|] eqn:Ge; [|destruct M] end. cbn in M. destruct M as [<- M].
    inversion S as [c1 S1 S2 S3 S4 S5 S6 S7 E1]; subst c1.
    destruct T as [p vt q T L|d' l1 T|d' u l1 next1 T|d'].
    - destruct w as [p' vt'| |]; try destruct M. exists (key, LParam q). cbn. split; [reflexivity|]. split; [reflexivity|]. split; [|discriminate].
      subst. exists id, p', vt'. split; [exact Ge|]. split; [exact T|]. split; [apply allows_acceptable, L|apply (S3 _ _ I)].
    - apply hget_in in G. specialize (V4 _ _ _ G). discriminate.
    - destruct w as [|d2|e' u']; [destruct M|destruct M|destruct M as [M <-]]. apply hget_in in G. 
      destruct (IH d' e' l1 next1 M) as (l' & A & B & C).
      + apply hget_in in Ge. rewrite Forall_forall in Wi. apply (Wi _ Ge).
      + apply (Hf4 _ _ _ _ G).
      + apply (V7 _ _ _ _ G).
      + apply (S6 _ _ _ I).
      + intros i c1 I1. apply (S7 _ _ _ _ _ I I1).
      + exact T.
      + exists (key, LMil (Some l')). cbn. split; [reflexivity|]. split; [exact A|]. split; [exists id, e', u; auto|]. intros Hc l2 E. injection E as <-. apply C, Hc.
    - destruct w as [|d2|e' u']; [destruct M|destruct M|destruct M as [M <-]]. exists (key, LMil None). cbn. split; [reflexivity|]. split; [exact Logic.I|]. split; [exists id, e', true; auto|discriminate]. }
  (* one item *)
  assert (It1 : forall a, In a l -> exists b : Z * item (mlistT n), fst a = fst b /\ is_item (is_mlist n) (snd a) (snd b) /\
      typed_item mem (typedT mem n) (snd b) e /\ (counted = true -> counted_item (countedT n) (snd b))).
  { intros [id c] I. pose proof (Hs _ _ I) as S. pose proof (Hv _ _ I) as V. destruct (choice _ _ (Val1 c S V)) as [ws F].
    inversion S as [c1 S1 S2 S3 S4 S5 S6 S7 E1]; subst c1. inversion V as [d1 c1 [_ Vr] _ E1 E2]; subst d1 c1.
    exists (id, Item ws (ci_refs c)). cbn [fst snd]. split; [reflexivity|]. split; [|split].
    - split; [|reflexivity]. eapply forall2_impl; [|exact F]. intuition.
    - split; [|split; [|split]]; cbn [it_values it_refs].
      + assert (K : map fst (ci_values c) = map fst ws) by (eapply forall2_map; [|exact F]; intuition). rewrite <- K. exact S1.
      + exact S2.
      + intros key w G. apply hget_in in G. destruct (forall2_in_r _ _ _ _ F G) as (a & _ & _ & _ & T & _). exact T.
      + intros key q G. apply hget_in in G. destruct (Vr _ _ G) as (_ & _ & i & q0 & vt & Gr & L). rewrite Er in Gr. exists i, q0, vt.
        split; [exact Gr|]. split; [apply allows_acceptable_ref, L|apply (S4 _ _ G)].
    - intros Hc key l1 G. cbn [it_values] in G. apply hget_in in G. destruct (forall2_in_r _ _ _ _ F G) as (a & _ & _ & _ & _ & T). apply (T Hc _ eq_refl). }
  destruct (choice _ _ It1) as [l' F].
  assert (Ids : map fst l = ids l') by (eapply forall2_map; [|exact F]; intuition).
  assert (Look : forall id it, lookup id l' = Some it -> In (id, it) l').
  { clear. induction l' as [|[k v] l' IH]; cbn; [discriminate|]. intros id it. destruct (id =? k) eqn:E; [|auto].
    intros H; injection H as <-. left. f_equal. symmetry. apply Z.eqb_eq, E. }
  exists (l', match l with [] => 0 | _ => next end). cbn [fst snd]. split; [|split].
  - split; [|reflexivity]. eapply forall2_impl; [|exact F]. intuition.
  - split; [fold (ids l'); cbn [fst]; rewrite <- Ids; exact Q1|]. split; [cbn [fst]; rewrite <- Ids; exact Q2|]. split; [cbn [snd]; destruct l; [split; lia|exact Q3]|].
    split; [cbn [fst]; replace (zlen l') with (zlen l) by apply (forall2_zlen _ _ _ F); unfold zlen in *; rewrite map_length in Q4; exact Q4|].
    split; [apply numbered_few; [exact Nm|]; eapply Z.le_trans; [|exact Hf1]; apply Z.eq_le_incl, eq_sym, (forall2_zlen _ _ _ Fm)|].
    split; [apply numbered_few; [exact Nr|]; eapply Z.le_trans; [|exact Hf2]; apply Z.eq_le_incl; rewrite Er; reflexivity|].
    intros id it G. destruct (forall2_in_r _ _ _ _ F (Look _ _ G)) as (a & _ & _ & _ & T & _). exact T.
  - intros Hc. split; [cbn [fst]; rewrite <- Ids; exact Q1|]. split.
    + cbn [fst snd]. rewrite <- Ids. destruct l; [constructor|]. apply Q5, Hc.
    + intros id it G. destruct (forall2_in_r _ _ _ _ F (Look _ _ G)) as (a & _ & _ & _ & _ & T). apply T, Hc.
Qed.
End Lists.

(* ------------------------------------------------------------------ *)
(** * Source files *)

Definition ok_node (counted : bool) (v : jval) : Prop := rust_node v /\ unique_node v /\ (counted = true -> counted_node v).

Lemma item_ids_range l : forall i, 0 <= i -> i + zlen l < 2 ^ 64 -> Forall u64_range (item_ids i l).
Proof.
  induction l as [|x l IH]; intros i H0 H; [constructor|]. rewrite zlen_cons in H. pose proof (zlen_nonneg l).
  destruct x as [| | | | | | |m]; cbn [item_ids]; try (apply IH; lia). constructor; [|apply IH; lia].
  unfold item_id. destruct (hget (txt "ID") m) as [[| | | | |b| |]|]; try (split; lia). unfold to_uint. destruct (fdec F64 b) as [|[]|s n]; split; lia.
Qed.
Lemma item_ids_le l : forall i, zlen (item_ids i l) <= zlen l.
Proof.
  induction l as [|x l IH]; intros i; [reflexivity|]. pose proof (IH i) as H1. pose proof (IH (i + 1)) as H2.
  destruct x; cbn [item_ids]; rewrite !zlen_cons; lia.
Qed.
Lemma written_next_range l n : written_next l = Some n -> u64_range n.
Proof.
  induction l as [|x l IH]; [discriminate|]. destruct x as [| | | | | |a|]; cbn [written_next]; auto.
  destruct a as [|[] [|[] [|]]]; auto. destruct (eqb_bytes _ _); auto. intros E; injection E as <-. unfold to_unsigned. apply Z.mod_pos_bound. lia.
Qed.

Lemma ok_list counted a : ok_node counted (JArray a) -> list_ok counted (item_ids 0 a) (next_of a).
Proof.
  intros (R & U & C). cbn [rust_node unique_node counted_node] in R, U, C. pose proof (item_ids_le a 0). split; [exact U|]. split; [apply item_ids_range; lia|]. split; [|split; [lia|exact C]].
  unfold next_of. destruct (written_next a) as [n|] eqn:E; [apply (written_next_range _ _ E)|]. pose proof (zlen_nonneg (item_ids 0 a)). split; lia.
Qed.

Lemma int_float i : u64_range (i64_to_f64 i).
Proof.
  apply (fdec_fenc F64 _ wf_F64), fround_repr; [exact wf_F64|]. apply Z.mul_nonneg_nonneg; [lia|]. apply Z.pow_nonneg. lia.
Qed.

Lemma loaded_sound addr mem iter parse files r counted : iterates iter -> (forall s, mem (addr s) = s) ->
  all_files (everywhere (ok_node counted)) parse files -> files_to_root addr iter parse files = Ok r ->
  ro_sound (wf_param mem) wf_ref (list_ok counted) (fun n => n <= 2 ^ 62) r.
Proof.
  intros It Hm U E.
  assert (G : gives (ro_sound (wf_param mem) wf_ref (list_ok counted) (fun n => n <= 2 ^ 62)) (files_to_root addr iter parse files)).
  { apply (files_sound addr iter It (ok_node counted)).
    - intros; lia.
    - intros m (R & _). cbn [rust_node] in R. lia.
    - lia.
    - apply ok_list.
    - intros q. exact I.
    - intros q H. destruct q; [destruct H|cbn; auto|cbn; auto].
    - intros q H. destruct q; [destruct H|cbn; auto|cbn; auto].
    - intros q H. destruct q; [destruct H|exact I|exact I].
    - intros i (R & _). exact R.
    - intros i _. apply int_float.
    - intros i (R & _). exact R.
    - intros s (R & _). cbn. split; [symmetry; apply Hm|exact R].
    - intros a b l (R & _) L F ->. cbn [rust_node wf_param fst snd] in *. split; [symmetry; apply Hm|]. split; [exact F|lia].
    - intros a l (R & _) L F. cbn [rust_node wf_param fst snd] in *. split; [exact F|lia].
    - intros a b l (R & _) L F ->. cbn [rust_node wf_param fst snd] in *. split; [symmetry; apply Hm|]. split; [exact F|lia].
    - intros q H. destruct q; cbn in *; [apply H|exact I|exact I].
    - exact U. }
  rewrite E in G. exact G.
Qed.

(* ------------------------------------------------------------------ *)
(** * The root *)

Lemma root_exists mem r counted : ro_wf r -> zlen (ro_default r) <= 2 ^ 62 ->
  ro_sound (wf_param mem) wf_ref (list_ok counted) (fun n => n <= 2 ^ 62) r -> root_valid r false ->
  exists n (def : rootdef n) (s : sabun n), is_rootdef (ro_default r) def /\ is_sabun (ro_sabun r) s /\
    wf_rootdef def /\ typed_root mem s def /\ (counted = true -> counted_root s).
Proof.
  intros ((Nd & Wd) & _ & La) Lf (Sd & Ss & Ns) (_ & V).
  destruct (uniform (fun (a : name * (Z * rootvalue)) n => exists b : name * (Z * rootval (defT n)),
      fst a = fst b /\ fst (snd a) = fst (snd b) /\ is_rootval (is_def n) (snd (snd a)) (snd (snd b)) /\
      match snd (snd b) with RVMList e _ => wf_defT n e | _ => True end) (ro_default r)) as [N H].
  { intros [key [id v]] I. destruct v as [p vt|d rows old|d l|d u].
    - exists O. intros n _. exists (key, (id, RVParam p vt)). cbn. auto.
    - exists O. intros n _. exists (key, (id, RVTable)). cbn. auto.
    - exists O. intros n _. exists (key, (id, RVCList)). cbn. auto.
    - destruct (def_exists d (Wd _ _ _ I)) as [N H]. exists N. intros n Hn. destruct (H n Hn) as (e & He & We). exists (key, (id, RVMList e u)). cbn. auto. }
  specialize (H N (le_n N)). apply choice in H as [def F].
  assert (F' : Forall2 (fun a b => fst a = fst b /\ (fst (snd a) = fst (snd b) /\ is_rootval (is_def N) (snd (snd a)) (snd (snd b)) /\
      match snd (snd b) with RVMList e _ => wf_defT N e | _ => True end)) (ro_default r) def) by exact F.
  assert (Each : forall a, In a (ro_sabun r) -> exists b : name * rootsab (mlistT N), fst a = fst b /\ is_rootsab (is_mlist N) (snd a) (snd b) /\
      (exists o, snd b = RMut o /\ exists id d u, hget (fst b) def = Some (id, RVMList d u) /\ match o with Some l => typedT mem N l d | None => u = true end) /\
      (counted = true -> forall l, snd b = RMut (Some l) -> countedT N l)).
  { intros [key x] I. destruct (La _ _ I) as (id & v & Iv & Lv). destruct v as [| | |d u]; try destruct Lv.
    pose proof (Sd _ _ _ Iv) as Hf. cbn in Hf. destruct (V _ _ _ Iv) as [Hd Hx]. specialize (Hx x (in_hget _ _ _ Ns I)).
    pose proof (forall2_hget (fun a b => fst a = fst b /\ is_rootval (is_def N) (snd a) (snd b) /\ match snd b with RVMList e _ => wf_defT N e | _ => True end) _ _ key F') as M.
    rewrite (in_hget _ _ _ (proj1 Nd) Iv) in M. destruct (hget key def) as [[id' w]|] eqn:Ge; [|destruct M]. cbn in M. destruct M as (<- & M & We).
    destruct w as [| | |e u']; [destruct M|destruct M|destruct M|destruct M as [M <-]]. pose proof (Ss _ _ I) as S. destruct Hx as [(l & next & -> & Hi)|[-> ->]].
    - destruct S as [S1 S2]. destruct (list_exists mem r counted N d e l next M We Hf Hd S1 S2 Hi) as (l' & A & B & C).
      exists (key, RMut (Some l')). cbn. split; [reflexivity|]. split; [exact A|]. split; [exists (Some l'); split; [reflexivity|]; exists id, e, u; auto|].
      intros Hc l2 E. injection E as <-. apply C, Hc.
    - exists (key, RMut None). cbn. split; [reflexivity|]. split; [exact Logic.I|]. split; [exists None; split; [reflexivity|]; exists id, e, true; auto|discriminate]. }
  apply choice in Each as [s Fs]. exists N, def, s. split; [|split; [|split; [|split]]].
  - eapply forall2_impl; [|exact F]. intuition.
  - eapply forall2_impl; [|exact Fs]. intuition.
  - assert (Nf : numbered def) by (eapply (forall2_numbered (fun _ _ => True)); [|exact Nd]; eapply forall2_impl; [|exact F]; intuition).
    split; [exact Nf|]. split; [apply numbered_few; [exact Nf|]; eapply Z.le_trans; [|exact Lf]; apply Z.eq_le_incl, eq_sym, (forall2_zlen _ _ _ F)|].
    apply Forall_forall. intros b I. destruct (forall2_in_r _ _ _ _ F I) as (a & _ & _ & _ & _ & W). exact W.
  - split.
    + assert (K : map fst (ro_sabun r) = map fst s) by (eapply forall2_map; [|exact Fs]; intuition). rewrite <- K. exact Ns.
    + intros key v G. apply hget_in in G. destruct (forall2_in_r _ _ _ _ Fs G) as (a & _ & _ & _ & (o & E & T) & _). cbn in E, T. subst v. exact T.
  - intros Hc key l G. apply hget_in in G. destruct (forall2_in_r _ _ _ _ Fs G) as (a & _ & _ & _ & _ & T). apply (T Hc _ eq_refl).
Qed.

Lemma loaded_root addr mem iter parse files r counted : iterates iter -> (forall s, mem (addr s) = s) ->
  NoDup (source_names parse files) -> zlen (source_names parse files) <= 2 ^ 62 ->
  all_files (everywhere rust_node) parse files -> all_files (everywhere unique_node) parse files ->
  (counted = true -> all_files (everywhere counted_node) parse files) ->
  load_root addr iter parse files true = Ok r ->
  exists n (def : rootdef n) (s : sabun n), is_rootdef (ro_default r) def /\ is_sabun (ro_sabun r) s /\
    wf_rootdef def /\ typed_root mem s def /\ (counted = true -> counted_root s).
Proof.
  intros It Hm N L R U C E. unfold load_root in E. apply bind_ok in E as (r0 & E1 & E2). apply bind_ok in E2 as ([] & E2 & E3). apply Ok_inj in E3; subst r0.
  pose proof (loaded_distinct addr iter parse files r It U E1) as D. apply (validate_root_iff r false D) in E2.
  pose proof (files_wf addr iter It parse files N) as G. rewrite E1 in G. destruct G as [W P].
  apply (root_exists mem r counted W).
  - apply Permutation_length in P. rewrite map_length in P. unfold zlen in *. rewrite P. exact L.
  - apply (loaded_sound addr mem iter parse files r counted It Hm); [|exact E1].
    intros path content v I Ev. pose proof (R _ _ _ I Ev) as Rv. pose proof (U _ _ _ I Ev) as Uv. unfold ok_node. destruct counted.
    + pose proof (C eq_refl _ _ _ I Ev) as Cv. eapply everywhere_impl; [|apply (everywhere_and _ _ _ Rv (everywhere_and _ _ _ Uv Cv))]. cbn. intuition.
    + eapply everywhere_impl; [|apply (everywhere_and _ _ _ Rv Uv)]. cbn. intuition discriminate.
  - exact E2.
Qed.
