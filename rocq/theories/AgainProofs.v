(** Proofs for C65. *)
From Verif Require Import Base CompactionModel CompactionSpec StringCompactionModel StringCompactionProofs LinkedModel LinkedSpec DocModel DiffModel DiffWireModel DiffSpec DiffEditSpec DiffProofs DiffProofs2
  ArchiveModel JsonModel JsonSpec ValidModel ValidSpec EmbedSpec EmbedProofs IntfModel IntfSpec IntfProofs
  SizeSpec SavedModel SavedProofs ReadModel AgainModel AgainSpec.

(* ------------------------------------------------------------------ *)
(** * The same values *)

Lemma same_type p q : DiffSpec.same_param p q -> type_of p = type_of q.
Proof. destruct p, q; cbn; intros H; try contradiction; reflexivity. Qed.
Lemma same_contents p q : DiffSpec.same_param p q -> same_qv same_content (contents p) (contents q).
Proof.
  destruct p as [a|a|a|a|a|a|a], q as [b|b|b|b|b|b|b]; cbn [DiffSpec.same_param]; intros H; try contradiction H.
  all: try (subst b; destruct a; cbn; auto).
  all: destruct a, b; cbn in *; try contradiction H; try exact Logic.I; try (rewrite H; reflexivity); exact H.
Qed.
Lemma same_content_refl c : same_content c c.
Proof. destruct c; cbn; try reflexivity; [left; reflexivity|]. induction l; constructor; [left; reflexivity|assumption]. Qed.
Lemma same_told_refl a : same_told a a.
Proof. destruct a as [a| |]; cbn; try exact Logic.I. destruct a as [| |q| | |]; cbn; try reflexivity. destruct q; cbn; try exact Logic.I. apply same_content_refl. Qed.

(** both fail, or both give the same *)
Definition both {A} (R : A -> A -> Prop) (a b : res A) : Prop :=
  match a, b with Ok x, Ok y => R x y | Err, Err | Panic, Panic => True | _, _ => False end.
Lemma both_bind {A B} (R : A -> A -> Prop) (Q : B -> B -> Prop) a b f g : both R a b -> (forall x y, R x y -> both Q (f x) (g y)) -> both Q (bind a f) (bind b g).
Proof. intros H F. destruct a, b; cbn in *; try contradiction; try exact Logic.I. apply F, H. Qed.

Definition same_got (a b : option param) : Prop := same_opt DiffSpec.same_param a b.
Lemma same_unwrapped t vt a b : same_got a b -> both (same_qv same_content) (unwrapped vt (get_as t a)) (unwrapped vt (get_as t b)).
Proof.
  destruct a as [p|], b as [q|]; cbn [same_got same_opt]; intros H; try contradiction; [|exact Logic.I]. unfold get_as. rewrite (same_type _ _ H).
  destruct (eqb_type (type_of q) t); [|exact Logic.I]. apply same_contents in H. destruct (contents p), (contents q); cbn in H; try contradiction; cbn; [exact H| |]; destruct vt; cbn; exact Logic.I.
Qed.
Lemma same_got_refl o : same_got o o.
Proof. destruct o as [p|]; cbn; [|exact Logic.I]. destruct p as [a|a|a|a|a|a|a]; cbn; try reflexivity; destruct a as [a| |]; cbn; try reflexivity; try exact Logic.I; [left; reflexivity|]. induction a; constructor; [left; reflexivity|assumption]. Qed.

(* ------------------------------------------------------------------ *)
(** * Items that cannot be told apart *)

Definition lists_alike (R : citem -> citem -> Prop) (l l' : list (Z * citem)) : Prop :=
  map fst l = map fst l' /\ forall id, same_opt R (lookup id l) (lookup id l').
Fixpoint alike (n : nat) : citem -> citem -> Prop :=
  match n with
  | O => fun _ _ => False
  | S n => fun c c' =>
      (forall key, match hget key (ci_values c), hget key (ci_values c') with
                   | Some (VParam p), Some (VParam q) => DiffSpec.same_param p q
                   | Some (VMil None), Some (VMil None) => True
                   | Some (VMil (Some l)), Some (VMil (Some l')) => lists_alike (alike n) (fst l) (fst l')
                   | Some (VCil l), Some (VCil l') => l = l'
                   | None, None => True
                   | _, _ => False
                   end) /\
      (forall key, hget key (ci_refs c) = hget key (ci_refs c')) /\ NoDup (map fst (ci_refs c)) /\ NoDup (map fst (ci_refs c'))
  end.

Lemma traverse_get {A B} (f : A -> option B) m : forall m', traverse (fun e => option_map (fun v => (fst e, v)) (f (snd e))) m = Some m' ->
  forall key, match hget key m, hget key m' with Some v, Some w => f v = Some w | None, None => True | _, _ => False end.
Proof.
  induction m as [|[k v] m IH]; intros m' E key; cbn [traverse fst snd] in E.
  - apply Some_inj in E; subst m'. exact Logic.I.
  - destruct (f v) as [w|] eqn:Ev; cbn [option_map] in E; [|discriminate]. destruct (traverse _ m) as [m1|] eqn:Em; [|discriminate]. apply Some_inj in E; subst m'.
    cbn [hget]. destruct (eqb_bytes k key); [exact Ev|]. apply IH. reflexivity.
Qed.
Lemma traverse_lookup {A B} (f : A -> option B) (m : list (Z * A)) : forall m', traverse (fun e => option_map (fun v => (fst e, v)) (f (snd e))) m = Some m' ->
  map fst m = map fst m' /\ forall id, match lookup id m, lookup id m' with Some v, Some w => f v = Some w | None, None => True | _, _ => False end.
Proof.
  induction m as [|[k v] m IH]; intros m' E; cbn [traverse fst snd] in E.
  - apply Some_inj in E; subst m'. split; [reflexivity|]. intros id. exact Logic.I.
  - destruct (f v) as [w|] eqn:Ev; cbn [option_map] in E; [|discriminate]. destruct (traverse _ m) as [m1|] eqn:Em; [|discriminate]. apply Some_inj in E; subst m'.
    destruct (IH _ eq_refl) as (A1 & A2). split; [cbn; rewrite A1; reflexivity|]. intros id. cbn [lookup]. destruct (id =? k); [exact Ev|apply A2].
Qed.
Lemma lookup_map {A B} (f : A -> B) id (l : list (Z * A)) : lookup id (map (fun e => (fst e, f (snd e))) l) = option_map f (lookup id l).
Proof. induction l as [|[k v] l IH]; [reflexivity|]. cbn [map lookup fst snd]. destruct (id =? k); [reflexivity|exact IH]. Qed.

Lemma list_alike nx n : forall l (a b : mlistT n), mlist_of n l = Some a -> sameT true nx n b a -> cleanT n a -> cleanT n b ->
  lists_alike (alike n) (fst l) (fst (plain_list n b)).
Proof.
  induction n as [|n IH]; intros l a b; [destruct a|]. change (mlistT (S n)) with (mlist (item (mlistT n))) in a, b. cbn [mlist_of sameT cleanT plain_list fst].
  destruct b as [b nb]. cbn [fst snd]. intros E (Si & Sl & _) (Na & Ca) (Nb & Cb). cbn [fst snd] in Si, Sl, Nb, Cb. destruct (traverse _ (fst l)) as [items|] eqn:Et; [|discriminate]. apply Some_inj in E; subst a. cbn [fst snd] in *.
  destruct (traverse_lookup _ _ _ Et) as (Ei & El). split; [rewrite map_map; cbn [fst]; rewrite Ei; symmetry; exact Si|].
  intros id. rewrite lookup_map. specialize (El id). specialize (Sl id). destruct (lookup id (fst l)) as [c|]; destruct (lookup id items) as [x|] eqn:Gx; try contradiction; destruct (lookup id b) as [y|] eqn:Gy; cbn [same_opt option_map] in *; try contradiction; [|exact Logic.I].
  destruct (Ca _ _ Gx) as (_ & Nx & Cx). destruct (Cb _ _ Gy) as (_ & Ny & Cy). destruct Sl as (Sv & Sr). unfold item_of in El. destruct (traverse _ (ci_values c)) as [vs|] eqn:Ev; [|discriminate]. apply Some_inj in El; subst x. cbn [it_values it_refs] in *.
  cbn [alike plain_item_of ci_values ci_refs]. split; [|split; [intros key; symmetry; apply Sr|split; assumption]].
  intros key. rewrite (hget_map (plain_value (plain_list n))). pose proof (traverse_get _ _ _ Ev key) as G. specialize (Sv key).
  destruct (hget key (ci_values c)) as [v|]; destruct (hget key vs) as [w|] eqn:Gw; try contradiction; destruct (hget key (it_values y)) as [u|] eqn:Gu; cbn [same_opt option_map] in *; try contradiction; [|exact Logic.I].
  destruct v as [p|cl|[m|]]; cbn [value_of] in G; try discriminate G.
  - apply Some_inj in G; subst w. destruct u as [q|t|o]; cbn [same_value] in Sv; try contradiction. cbn [plain_value]. apply same_param_sym, Sv.
  - destruct (mlist_of n m) as [m'|] eqn:Em; [|discriminate]. apply Some_inj in G; subst w. destruct u as [q|t|[o|]]; cbn [same_value same_opt] in Sv; try contradiction. cbn [plain_value option_map].
    apply (IH m m' o Em Sv); [apply (Cx _ _ Gw)|apply (Cy _ _ Gu)].
  - apply Some_inj in G; subst w. destruct u as [q|t|[o|]]; cbn [same_value same_opt] in Sv; try contradiction. exact Logic.I.
Qed.

(** the same for what [with_members] makes of both *)
Lemma plain_alike nx n : forall a b : mlistT n, sameT true nx n b a -> cleanT n a -> cleanT n b -> lists_alike (alike n) (fst (plain_list n a)) (fst (plain_list n b)).
Proof.
  induction n as [|n IH]; intros a b; [destruct a|]. change (mlistT (S n)) with (mlist (item (mlistT n))) in a, b. cbn [sameT cleanT plain_list fst].
  destruct a as [a na], b as [b nb]. cbn [fst snd]. intros (Si & Sl & _) (Na & Ca) (Nb & Cb). cbn [fst snd] in *. split; [rewrite !map_map; cbn [fst]; symmetry; exact Si|].
  intros id. rewrite !lookup_map. specialize (Sl id). destruct (lookup id a) as [x|] eqn:Gx; destruct (lookup id b) as [y|] eqn:Gy; cbn [same_opt option_map] in *; try contradiction; [|exact Logic.I].
  destruct (Ca _ _ Gx) as (_ & Nx & Cx). destruct (Cb _ _ Gy) as (_ & Ny & Cy). destruct Sl as (Sv & Sr).
  cbn [alike plain_item_of ci_values ci_refs]. split; [|split; [intros key; symmetry; apply Sr|split; assumption]].
  intros key. rewrite !(hget_map (plain_value (plain_list n))). specialize (Sv key).
  destruct (hget key (it_values x)) as [w|] eqn:Gw; destruct (hget key (it_values y)) as [u|] eqn:Gu; cbn [same_opt option_map] in *; try contradiction; [|exact Logic.I].
  destruct w as [p|c|[m|]], u as [q|t|[o|]]; cbn [same_value same_opt] in Sv; try contradiction; cbn [plain_value option_map].
  - apply same_param_sym, Sv.
  - reflexivity.
  - apply (IH m o Sv); [apply (Cx _ _ Gw)|apply (Cy _ _ Gu)].
  - exact Logic.I.
Qed.

(* ------------------------------------------------------------------ *)
(** * Objects that cannot be told apart *)

(** an enum has at most one reference *)
Definition few_refs (s : spot) : Prop := ld_enum (undef (snd s)) = true -> (length (ci_refs (fst s)) <= 1)%nat.

Lemma iterates_few {A} iter (m : hmap A) : iterates iter -> (length m <= 1)%nat -> iter A m = m.
Proof.
  intros It L. pose proof (It A m) as P. destruct m as [|x [|y m]]; [apply Permutation_sym, Permutation_nil in P; exact P| |cbn in L; lia].
  apply Permutation_sym, Permutation_length_1_inv in P. exact P.
Qed.
Lemma few_same {A} (m m' : hmap A) : (length m <= 1)%nat -> NoDup (map fst m) -> NoDup (map fst m') -> (forall key, hget key m = hget key m') -> m' = m.
Proof.
  intros L N N' H. destruct m as [|[k x] [|y m]]; [| |cbn in L; lia].
  - destruct m' as [|[k x] m']; [reflexivity|]. specialize (H k). cbn in H. rewrite eqb_bytes_refl in H. discriminate.
  - destruct m' as [|[k1 x1] m']; [specialize (H k); cbn in H; rewrite eqb_bytes_refl in H; discriminate|].
    pose proof (H k1) as H1. cbn in H1. rewrite eqb_bytes_refl in H1. destruct (eqb_bytes k k1) eqn:E; [|discriminate]. apply eqb_bytes_eq in E; subst k1. apply Some_inj in H1; subst x1.
    destruct m' as [|[k2 x2] m']; [reflexivity|]. pose proof (H k2) as H2. cbn in H2, N'. destruct (eqb_bytes k k2) eqn:E.
    + apply eqb_bytes_eq in E; subst k2. inversion N' as [|a b Na Nb]; subst. exfalso. apply Na. left; reflexivity.
    + rewrite eqb_bytes_refl in H2. discriminate.
Qed.

Definition near (s s' : spot) : Prop := snd s = snd s' /\ (fst s = fst s' \/ exists n, alike n (fst s) (fst s')).

Section Same.
Variables (iter iter' : forall A, hmap A -> hmap A) (r r' : root_obj).
Hypothesis It : iterates iter.
Hypothesis It' : iterates iter'.
Hypothesis Def : ro_default r' = ro_default r.
Hypothesis Sab : forall key, match hget key (ro_sabun r), hget key (ro_sabun r') with
                             | Some (RParam p), Some (RParam q) => DiffSpec.same_param p q
                             | Some (RMut None), Some (RMut None) => True
                             | Some (RMut (Some l)), Some (RMut (Some l')) => exists n, lists_alike (alike n) (fst l) (fst l')
                             | None, None => True
                             | _, _ => False
                             end.

Definition near_opt : option spot -> option spot -> Prop := same_opt near.

Lemma near_values s s' key : near s s' -> match hget key (ci_values (fst s)), hget key (ci_values (fst s')) with
                   | Some (VParam p), Some (VParam q) => DiffSpec.same_param p q
                   | Some (VMil None), Some (VMil None) => True
                   | Some (VMil (Some l)), Some (VMil (Some l')) => l = l' \/ exists n, lists_alike (alike n) (fst l) (fst l')
                   | Some (VCil l), Some (VCil l') => l = l'
                   | None, None => True
                   | _, _ => False
                   end.
Proof.
  intros (_ & [E|([|n] & A)]).
  - rewrite <- E. destruct (hget key (ci_values (fst s))) as [[p|l|[l|]]|]; try reflexivity; try exact Logic.I; [exact (same_got_refl (Some p))|left; reflexivity].
  - destruct A.
  - destruct A as (A & _). specialize (A key). destruct (hget key (ci_values (fst s))) as [[p|l|[l|]]|], (hget key (ci_values (fst s'))) as [[q|l'|[l'|]]|]; try contradiction; try exact A. right. exists n. exact A.
Qed.
Lemma near_refs s s' key : near s s' -> hget key (ci_refs (fst s)) = hget key (ci_refs (fst s')).
Proof. intros (_ & [E|([|n] & A)]); [rewrite E; reflexivity|destruct A|apply A]. Qed.
Lemma near_few s s' : near s s' -> (length (ci_refs (fst s)) <= 1)%nat -> ci_refs (fst s') = ci_refs (fst s).
Proof. intros (_ & [E|([|n] & A)]) L; [rewrite E; reflexivity|destruct A|]. destruct A as (_ & A & N & N'). apply few_same; assumption. Qed.
Lemma near_self s : near s s.
Proof. split; [reflexivity|left; reflexivity]. Qed.

Lemma near_ref_id s s' key : near s s' -> spot_ref_id s key = spot_ref_id s' key.
Proof. intros N. unfold spot_ref_id. rewrite (near_refs _ _ key N). destruct N as (-> & _). reflexivity. Qed.
Lemma near_ref s s' key : near s s' -> spot_ref r s key = spot_ref r' s' key.
Proof. intros N. unfold spot_ref, root_table. rewrite Def, (near_ref_id _ _ key N). reflexivity. Qed.
Lemma near_get_ref s s' key : near s s' -> get_ref r s key = get_ref r' s' key.
Proof. intros N. unfold get_ref. rewrite (near_ref _ _ key N). destruct N as (-> & _). reflexivity. Qed.
Lemma near_enum s s' : near s s' -> ld_enum (undef (snd s)) = true -> few_refs s -> spot_enum iter s = spot_enum iter' s'.
Proof.
  intros N E F. specialize (F E). unfold spot_enum. rewrite (near_few _ _ N F), !iterates_few by assumption. reflexivity.
Qed.
Lemma near_get_enum s s' : near s s' -> few_refs s -> get_enum iter r s = get_enum iter' r' s'.
Proof.
  intros N F. unfold get_enum. destruct (ld_enum (undef (snd s))) eqn:E.
  - rewrite (near_enum _ _ N E F). pose proof N as (D & _). rewrite <- D, E. destruct (spot_enum iter' s') as [e|]; cbn [need bind]; [|reflexivity]. rewrite (near_ref _ _ _ N). reflexivity.
  - destruct N as (<- & _). rewrite E. reflexivity.
Qed.

Lemma near_param s s' key : near s s' -> both (same_qv same_content) (get_param s key) (get_param s' key).
Proof.
  intros N. unfold get_param. pose proof N as (D & _). rewrite <- D. destruct (hget key (ld_members (undef (snd s)))) as [[i [p vt|d|d u]]|] eqn:G; try exact Logic.I.
  apply same_unwrapped. unfold spot_param. rewrite <- D, G. pose proof (near_values _ _ key N) as V.
  destruct (hget key (ci_values (fst s))) as [[a|l|[l|]]|], (hget key (ci_values (fst s'))) as [[b|l'|[l'|]]|]; try contradiction; try exact V; apply same_got_refl.
Qed.
Lemma near_cil s s' key : near s s' -> spot_cil s key = spot_cil s' key.
Proof.
  intros N. unfold spot_cil. pose proof N as (D & _). rewrite <- D. destruct (hget key (ld_members (undef (snd s)))) as [[i [p vt|d|d u]]|]; try reflexivity.
  pose proof (near_values _ _ key N) as V. destruct (hget key (ci_values (fst s))) as [[a|l|[l|]]|], (hget key (ci_values (fst s'))) as [[b|l'|[l'|]]|]; try contradiction; try reflexivity. rewrite V. reflexivity.
Qed.

(** the same list, or two alike *)
Definition near_list (a b : option (list (Z * citem)) * def) : Prop :=
  snd a = snd b /\ same_opt (fun l l' => l = l' \/ exists n, lists_alike (alike n) l l') (fst a) (fst b).
Lemma near_get_list u a b : same_opt near_list a b -> both near_list (get_list u a) (get_list u b).
Proof.
  destruct a as [[a d]|], b as [[b d']|]; cbn [same_opt]; intros H; try contradiction; [|exact Logic.I]. unfold get_list. cbn [need bind fst].
  pose proof H as (_ & H2). cbn [fst] in H2. destruct a, b; cbn [same_opt] in H2; try contradiction; [exact H|]. destruct u; [exact H|exact Logic.I].
Qed.
Lemma near_mil s s' key : near s s' -> same_opt near_list (spot_mil s key) (spot_mil s' key).
Proof.
  intros N. unfold spot_mil. pose proof N as (D & _). rewrite <- D. destruct (hget key (ld_members (undef (snd s)))) as [[i [p vt|d|d u]]|]; try exact Logic.I.
  pose proof (near_values _ _ key N) as V. destruct (hget key (ci_values (fst s))) as [[a|l|[l|]]|], (hget key (ci_values (fst s'))) as [[b|l'|[l'|]]|]; try contradiction; cbn [same_opt]; (split; [reflexivity|]); cbn; auto.
  destruct V as [-> |V]; [left; reflexivity|right; exact V].
Qed.
Lemma near_mlist key : same_opt near_list (root_mlist r key) (root_mlist r' key).
Proof.
  unfold root_mlist. rewrite Def. destruct (hget key (ro_default r)) as [[i [p vt|d rows old|d l|d u]]|]; try exact Logic.I. specialize (Sab key).
  destruct (hget key (ro_sabun r)) as [[p|[l|]]|], (hget key (ro_sabun r')) as [[q|[l'|]]|]; try contradiction; try exact Logic.I; (split; [reflexivity|]); cbn; auto.
Qed.
Lemma near_ids a b : near_list a b -> ids_of a = ids_of b.
Proof.
  intros (_ & H). unfold ids_of. destruct (fst a), (fst b); cbn [same_opt] in H; try contradiction; [|reflexivity]. cbn [option_map]. destruct H as [-> |(n & -> & _)]; reflexivity.
Qed.
Lemma near_item a b id : near_list a b -> near_opt (item_of_list a id) (item_of_list b id).
Proof.
  intros (D & H). unfold item_of_list, mlist_item. rewrite D. destruct (fst a) as [l|], (fst b) as [l'|]; cbn [same_opt] in H; try contradiction; [|exact Logic.I].
  destruct H as [-> |(n & _ & H)].
  - destruct (lookup id l'); cbn; [apply near_self|exact Logic.I].
  - specialize (H id). destruct (lookup id l), (lookup id l'); cbn in H |- *; try contradiction; [|exact Logic.I]. split; [reflexivity|right; exists n; exact H].
Qed.

Lemma both_refl {A} (R : A -> A -> Prop) a : (forall x, R x x) -> both R a a.
Proof. intros H. destruct a; cbn; auto. Qed.
Lemma near_opt_self o : near_opt o o.
Proof. destruct o; cbn; [apply near_self|exact Logic.I]. Qed.

(** every way leads to the same place *)
Hypothesis Few : forall w s, visit iter r w = Ok (Some s) -> few_refs s.

Lemma visit_near w : both near_opt (visit iter r w) (visit iter' r' w).
Proof.
  induction w as [t id|l i|l id|w IH key i|w IH key id|w IH key|w IH key].
  - cbn [visit]. unfold root_table. rewrite Def. apply both_refl, near_opt_self.
  - cbn [visit]. unfold root_clist. rewrite Def. apply both_refl, near_opt_self.
  - cbn [visit]. rewrite Def. destruct (hget l (ro_default r)) as [[i [p vt|d rows old|d x|d u]]|]; try exact Logic.I.
    eapply both_bind; [apply near_get_list, near_mlist|]. intros a b H. apply near_item, H.
  - cbn [visit]. eapply both_bind; [exact IH|]. intros [s|] [s'|] H; cbn in H; try contradiction; [|exact Logic.I]. rewrite (near_cil _ _ key H). apply both_refl, near_opt_self.
  - cbn [visit]. eapply both_bind; [exact IH|]. intros [s|] [s'|] H; cbn in H; try contradiction; [|exact Logic.I]. pose proof H as (D & _). rewrite <- D.
    destruct (hget key (ld_members (undef (snd s)))) as [[i [p vt|d|d u]]|]; try exact Logic.I. eapply both_bind; [apply near_get_list, near_mil, H|]. intros a b H'. apply near_item, H'.
  - cbn [visit]. eapply both_bind; [exact IH|]. intros [s|] [s'|] H; cbn in H; try contradiction; [|exact Logic.I]. rewrite (near_get_ref _ _ key H). apply both_refl, near_opt_self.
  - cbn [visit]. pose proof (Few w) as F. destruct (visit iter r w) as [[s|]| |], (visit iter' r' w) as [[s'|]| |]; cbn [both near_opt same_opt] in IH; try contradiction; try exact Logic.I. cbn [bind].
    rewrite (near_get_enum _ _ IH (F s eq_refl)). apply both_refl, near_opt_self.
Qed.

Lemma at_item_near w f g : (forall s s', visit iter r w = Ok (Some s) -> near s s' -> both same_answer (f s) (g s')) ->
  both same_answer (at_item iter r w f) (at_item iter' r' w g).
Proof.
  intros H. unfold at_item. pose proof (visit_near w) as V. destruct (visit iter r w) as [[s|]| |], (visit iter' r' w) as [[s'|]| |]; cbn [both near_opt same_opt] in V; try contradiction; try exact Logic.I; cbn [bind]; [|reflexivity].
  apply H; [reflexivity|exact V].
Qed.

Lemma ask_same q : same_told (ask iter r q) (ask iter' r' q).
Proof.
  change (both same_answer (ask iter r q) (ask iter' r' q)). destruct q as [key|key|w|w key|w key|w|w key]; cbn [ask].
  - unfold get_root_param. rewrite Def. destruct (hget key (ro_default r)) as [[i [p vt|d rows old|d x|d u]]|] eqn:G; try exact Logic.I.
    eapply both_bind; [apply same_unwrapped|intros a b H; exact H]. unfold root_obj_param. rewrite Def, G. specialize (Sab key).
    destruct (hget key (ro_sabun r)) as [[a|[l|]]|], (hget key (ro_sabun r')) as [[b|[l'|]]|]; try contradiction; try exact Sab; apply same_got_refl.
  - rewrite Def. destruct (hget key (ro_default r)) as [[i [p vt|d rows old|d x|d u]]|]; try exact Logic.I.
    eapply both_bind; [apply near_get_list, near_mlist|]. intros a b H. rewrite (near_ids _ _ H). reflexivity.
  - apply at_item_near. intros s s' _ _. reflexivity.
  - apply at_item_near. intros s s' _ N. eapply both_bind; [apply near_param, N|intros a b H; exact H].
  - apply at_item_near. intros s s' _ N. unfold get_ref_id. rewrite (near_ref_id _ _ key N). destruct N as (-> & _). apply (same_told_refl (bind _ _)).
  - apply at_item_near. intros s s' E N. pose proof (Few _ _ E) as F. unfold get_enum_ids. destruct (ld_enum (undef (snd s))) eqn:En.
    + rewrite (near_enum _ _ N En F). destruct N as (<- & _). rewrite En. apply (same_told_refl (bind _ _)).
    + destruct N as (<- & _). rewrite En. exact Logic.I.
  - apply at_item_near. intros s s' _ N. pose proof N as (D & _). rewrite <- D. destruct (hget key (ld_members (undef (snd s)))) as [[i [p vt|d|d u]]|]; try exact Logic.I.
    eapply both_bind; [apply near_get_list, near_mil, N|]. intros a b H. rewrite (near_ids _ _ H). reflexivity.
Qed.
End Same.

(* ------------------------------------------------------------------ *)
(** * Enums keep at most one reference *)

Definition sole_item {D L} (inner : L -> D -> Prop) (it : item L) (d : ldef D) : Prop :=
  (ld_enum d = true -> (length (it_refs it) <= 1)%nat) /\
  forall key x id d' u, hget key (it_values it) = Some (LMil (Some x)) -> hget key (ld_members d) = Some (id, DMil d' u) -> inner x d'.
Fixpoint soleT (n : nat) : mlistT n -> defT n -> Prop :=
  match n with
  | O => fun _ _ => True
  | S n => fun l d => forall id it, In (id, it) (fst l) -> sole_item (soleT n) it d
  end.
Definition sole_root {n} (s : sabun n) (def : rootdef n) : Prop :=
  forall key l id d u, hget key s = Some (RMut (Some l)) -> hget key def = Some (id, RVMList d u) -> soleT n l d.

Lemma sole_set {D L} (inner : L -> D -> Prop) (it : item L) (d : ldef D) key v : sole_item inner it d ->
  (forall x id d' u, v = LMil (Some x) -> hget key (ld_members d) = Some (id, DMil d' u) -> inner x d') ->
  sole_item inner (Item (hset key v (it_values it)) (it_refs it)) d.
Proof.
  intros (A & B) H. split; [exact A|]. cbn [it_values]. intros k x id d' u G M. destruct (name_dec k key) as [->|Hk].
  - rewrite hget_hset_same in G. apply Some_inj in G. eapply H; eassumption.
  - rewrite hget_hset_other in G by exact Hk. eapply B; eassumption.
Qed.
Lemma sole_param {D L} (inner : L -> D -> Prop) (it : item L) (d : ldef D) key p : sole_item inner it d -> sole_item inner (Item (hset key (LParam p) (it_values it)) (it_refs it)) d.
Proof. intros S. apply sole_set; [exact S|]. intros; discriminate. Qed.
Lemma sole_empty n d : soleT n (empty_list n d) d.
Proof. destruct n; [exact Logic.I|]. intros id it []. Qed.

Lemma item_do_sole n (it it' : item (mlistT n)) (d : ldef (defT n)) o b : sole_item (soleT n) it d -> generated_op d o ->
  item_do it d o = Ok (it', b) -> sole_item (soleT n) it' d.
Proof.
  intros S G E. pose proof S as (S1 & S2). destruct o as [key p|key t a new|key a len|key q|key id|key]; cbn [item_do generated_op] in *.
  - unfold item_set in E. destruct (hget key (ld_members d)) as [[id [p0 vt|d'|d' u]]|]; try (apply Ok_inj, pair_equal_spec in E as [<- _]; exact S).
    destruct (verify_set_sabun p0 vt p); [|apply Ok_inj, pair_equal_spec in E as [<- _]; exact S].
    destruct (hget key (it_values it)) as [[]|]; try discriminate; apply Ok_inj, pair_equal_spec in E as [<- _]; apply sole_param; exact S.
  - unfold item_write, item_param_mut in E.
    destruct (hget key (it_values it)) as [[p|c|l]|]; try (destruct (hget key (ld_members d)) as [[id [p0 vt|d'|d' u]]|]);
      try (destruct (eqb_type _ t)); apply Ok_inj, pair_equal_spec in E as [<- _]; try exact S; repeat apply sole_param; try exact S; try (apply (sole_param _ (Item _ _))); apply sole_param; exact S.
  - unfold item_initial in E. destruct (hget key (ld_members d)) as [[id [p0 vt|d'|d' u]]|]; apply Ok_inj, pair_equal_spec in E as [<- _]; try exact S. apply sole_param; exact S.
  - apply Ok_inj, pair_equal_spec in E as [<- _]. split; [intros H; congruence|exact S2].
  - apply Ok_inj, pair_equal_spec in E as [<- _]. split; [intros _; cbn; lia|exact S2].
  - unfold item_open in E. destruct (hget key (ld_members d)) as [[id [p0 vt|d'|d' u]]|] eqn:M; try (apply Ok_inj, pair_equal_spec in E as [<- _]; exact S).
    destruct (hget key (it_values it)) as [[p|c|[l|]]|]; apply Ok_inj, pair_equal_spec in E as [<- _]; try exact S.
    all: apply sole_set; [exact S|]; intros x i d1 u1 Ex Ed; injection Ex as <-; rewrite M in Ed; injection Ed as <- <- <-; apply sole_empty.
Qed.

Lemma assign_in {A} id (v : A) l i x : In (i, x) (assign id v l) -> In (i, x) l \/ x = v.
Proof.
  unfold assign. intros H. apply in_map_iff in H as ([k y] & E & I). cbn [fst snd] in E. destruct (k =? id); injection E as <- <-; auto.
Qed.
Lemma open_sole n (it : item (mlistT n)) d key it1 d' l' : sole_item (soleT n) it d -> item_open it d key (empty_list n) = (it1, Some (d', l')) ->
  sole_item (soleT n) it1 d /\ soleT n l' d' /\ exists id u, hget key (ld_members d) = Some (id, DMil d' u).
Proof.
  intros S E. unfold item_open in E. destruct (hget key (ld_members d)) as [[id [p0 vt|d1|d1 u]]|] eqn:M; try discriminate E.
  assert (S' : sole_item (soleT n) (Item (hset key (LMil (Some (empty_list n d1))) (it_values it)) (it_refs it)) d).
  { apply sole_set; [exact S|]. intros x i d2 u2 Ex Ed. injection Ex as <-. rewrite M in Ed. injection Ed as <- <- <-. apply sole_empty. }
  destruct (hget key (it_values it)) as [[p|c|[l|]]|] eqn:G; injection E as <- <- <-.
  all: split; [assumption|]; split; [try apply sole_empty|exists id, u; reflexivity]. destruct S as (_ & S). eapply S; eassumption.
Qed.

Lemma before_in {A} k (x y : Z * A) l : In y (before k x l) -> y = x \/ In y l.
Proof. induction l as [|z l IH]; cbn [before]; [intros []|]. destruct (fst z =? k); [intros [<-|H]; auto|intros [<-|H]; [right; left; reflexivity|destruct (IH H); [auto|right; right; assumption]]]. Qed.
Lemma after_in {A} k (x y : Z * A) l : In y (after k x l) -> y = x \/ In y l.
Proof. induction l as [|z l IH]; cbn [after]; [intros []|]. destruct (fst z =? k); [intros [<-|[<-|H]]; cbn; auto|intros [<-|H]; [right; left; reflexivity|destruct (IH H); [auto|right; right; assumption]]]. Qed.
Lemma without_in' {A} id (y : Z * A) l : In y (without id l) -> In y l.
Proof. unfold without. intros H. apply filter_In in H. apply H. Qed.
Lemma removelast_in {A} (y : A) l : In y (removelast l) -> In y l.
Proof. induction l as [|z [|w l] IH]; cbn [removelast]; [intros []|intros []|]. intros [<-|H]; [left; reflexivity|right; apply IH, H]. Qed.

Lemma list_do_in {L} (l l' : mlist (item L)) o b : list_do l o = Ok (l', b) -> forall id it, In (id, it) (fst l') -> In (id, it) (fst l) \/ it = Item [] [].
Proof.
  destruct l as [l next]. intros E i x H. cbn [fst]. unfold list_do in E. cbn [fst snd] in E. destruct o.
  1,2: destruct (_ && _); [|discriminate]; apply Ok_inj, pair_equal_spec in E as [<- _]; cbn [astep fst snd] in H.
  - destruct H as [H|H]; [injection H as <- <-; right; reflexivity|left; exact H].
  - apply in_app_or in H as [H|[H|[]]]; [left; exact H|injection H as <- <-; right; reflexivity].
  - apply Ok_inj, pair_equal_spec in E as [<- _]. cbn [astep fst snd] in H. left. eapply without_in', H.
  - apply Ok_inj, pair_equal_spec in E as [<- _]. cbn [astep fst snd] in H. destruct l as [|y l]; [destruct H|]. left. right. exact H.
  - apply Ok_inj, pair_equal_spec in E as [<- _]. cbn [astep fst snd] in H. destruct l as [|y l]; [destruct H|]. left. apply removelast_in. exact H.
  - apply Ok_inj, pair_equal_spec in E as [<- _]. cbn [astep] in H. destruct (lookup id l) as [it|] eqn:G; cbn [fst] in H; [|left; exact H]. left.
    destruct H as [<-|H]; [apply lookup_in', G|eapply without_in', H].
  - apply Ok_inj, pair_equal_spec in E as [<- _]. cbn [astep] in H. destruct (lookup id l) as [it|] eqn:G; cbn [fst] in H; [|left; exact H]. left.
    apply in_app_or in H as [H|[<-|[]]]; [eapply without_in', H|apply lookup_in', G].
  - apply Ok_inj, pair_equal_spec in E as [<- _]. cbn [astep] in H. destruct (lookup id l) as [it|] eqn:G; cbn [fst] in H; [|left; exact H]. left.
    destruct (_ || _); cbn [fst] in H; [exact H|]. apply before_in in H as [->|H]; [apply lookup_in', G|eapply without_in', H].
  - apply Ok_inj, pair_equal_spec in E as [<- _]. cbn [astep] in H. destruct (lookup id l) as [it|] eqn:G; cbn [fst] in H; [|left; exact H]. left.
    destruct (_ || _); cbn [fst] in H; [exact H|]. apply after_in in H as [->|H]; [apply lookup_in', G|eapply without_in', H].
Qed.

Lemma list_run_sole n : forall st d l l' b, soleT n l d -> generated_step n st d -> list_run n st d l = Ok (l', b) -> soleT n l' d.
Proof.
  induction n as [|n IH]; intros st d l l' b; [destruct d|]. intros S O E. cbn [soleT] in S |- *.
  destruct st as [o|id o|id key st]; cbn [list_run generated_step] in E, O.
  - intros i x H. destruct (list_do_in _ _ _ _ E _ _ H) as [H'| ->]; [apply (S _ _ H')|]. split; [intros _; cbn; lia|]. intros k x0 i0 d' u G. discriminate.
  - destruct (lookup id (fst l)) as [it|] eqn:G; [|apply Ok_inj, pair_equal_spec in E as [<- _]; exact S].
    apply bind_ok in E as ([it' b'] & E1 & E2). apply Ok_inj, pair_equal_spec in E2 as [<- _].
    intros i x H. cbn [fst] in H. apply assign_in in H as [H| ->]; [apply (S _ _ H)|]. eapply item_do_sole; [apply (S id); apply lookup_in', G|exact O|exact E1].
  - destruct (lookup id (fst l)) as [it|] eqn:G; [|apply Ok_inj, pair_equal_spec in E as [<- _]; exact S].
    assert (Si : sole_item (soleT n) it d) by (apply (S id); apply lookup_in', G).
    destruct (item_open it d key (empty_list n)) as [it1 [[d' l1]|]] eqn:Eo; [|apply Ok_inj, pair_equal_spec in E as [<- _]; exact S].
    destruct (open_sole _ _ _ _ _ _ _ Si Eo) as (S1 & S2 & i1 & u & M). apply bind_ok in E as ([l2 b'] & E1 & E2). apply Ok_inj, pair_equal_spec in E2 as [<- _].
    intros i x H. cbn [fst] in H. apply assign_in in H as [H| ->]; [apply (S _ _ H)|]. apply sole_set; [exact S1|]. intros x0 i2 d2 u2 Ex Ed. injection Ex as <-. rewrite M in Ed. injection Ed as <- <- <-.
    eapply IH; [exact S2|apply (O _ _ _ M)|exact E1].
Qed.

Lemma sole_root_set n (s : sabun n) def key v : sole_root s def -> (forall l id d u, v = RMut (Some l) -> hget key def = Some (id, RVMList d u) -> soleT n l d) -> sole_root (hset key v s) def.
Proof.
  intros S H k l id d u G M. destruct (name_dec k key) as [->|Hk].
  - rewrite hget_hset_same in G. apply Some_inj in G. eapply H; eassumption.
  - rewrite hget_hset_other in G by exact Hk. eapply S; eassumption.
Qed.
Lemma sole_root_param n (s : sabun n) def key p : sole_root s def -> sole_root (hset key (RParam p) s) def.
Proof. intros S. apply sole_root_set; [exact S|]. intros; discriminate. Qed.
Lemma root_open_sole n (s s1 : sabun n) def key o : sole_root s def -> root_open s def key (empty_list n) = (s1, o) ->
  sole_root s1 def /\ forall d l, o = Some (d, l) -> soleT n l d /\ exists id u, hget key def = Some (id, RVMList d u).
Proof.
  intros S E. unfold root_open in E. destruct (hget key def) as [[id [p vt| | |d u]]|] eqn:M; try (apply pair_equal_spec in E as [<- <-]; split; [exact S|discriminate]).
  assert (S' : sole_root (hset key (RMut (Some (empty_list n d))) s) def).
  { apply sole_root_set; [exact S|]. intros l i d1 u1 El Ed. injection El as <-. rewrite M in Ed. injection Ed as <- <- <-. apply sole_empty. }
  destruct (hget key s) as [[p|[l|]]|] eqn:G; apply pair_equal_spec in E as [<- <-].
  all: split; [assumption|]; intros d1 l1 E; injection E as <- <-; split; [try apply sole_empty|exists id, u; reflexivity]. eapply S; eassumption.
Qed.
Lemma root_run_sole n (def : rootdef n) s o s' b : sole_root s def -> generated_root_step def o -> root_run def s o = Ok (s', b) -> sole_root s' def.
Proof.
  intros S G E. destruct o as [key p|key t a new|key a len|key|key st]; cbn [root_run generated_root_step] in *.
  - apply Ok_inj in E. unfold root_set in E. destruct (hget key def) as [[id [p0 vt| | |d u]]|]; try (apply pair_equal_spec in E as [<- _]; exact S).
    destruct (verify_set_sabun p0 vt p); apply pair_equal_spec in E as [<- _]; [apply sole_root_param|]; exact S.
  - unfold root_write, root_param_mut in E. destruct (hget key s) as [[p|l]|]; try (destruct (hget key def) as [[id [p0 vt| | |d u]]|]); try (destruct (eqb_type _ t)); apply Ok_inj, pair_equal_spec in E as [<- _]; repeat apply sole_root_param; exact S.
  - apply Ok_inj in E. unfold root_initial in E. destruct (hget key def) as [[id [p0 vt| | |d u]]|]; apply pair_equal_spec in E as [<- _]; try apply sole_root_param; exact S.
  - destruct (root_open s def key (empty_list n)) as [s1 o] eqn:Eo. apply Ok_inj, pair_equal_spec in E as [<- _]. apply (root_open_sole _ _ _ _ _ _ S Eo).
  - destruct (root_open s def key (empty_list n)) as [s1 o] eqn:Eo. destruct (root_open_sole _ _ _ _ _ _ S Eo) as (S1 & So). destruct o as [[d l]|]; [|apply Ok_inj, pair_equal_spec in E as [<- _]; exact S1].
    apply bind_ok in E as ([l' b'] & E1 & E2). apply Ok_inj, pair_equal_spec in E2 as [<- _]. destruct (So d l eq_refl) as (Sl & id & u & M). apply sole_root_set; [exact S1|].
    intros x i d1 u1 Ex Ed. injection Ex as <-. rewrite M in Ed. injection Ed as <- <- <-. eapply list_run_sole; [exact Sl|apply (G _ _ _ M)|exact E1].
Qed.
Lemma program_sole n (def : rootdef n) ops : Forall (generated_root_step def) ops -> forall s s', sole_root s def -> program_run def s ops = Ok s' -> sole_root s' def.
Proof.
  intros F. induction F as [|o ops O F IH]; intros s s' S E; unfold program_run in E; cbn [mfold] in E.
  - apply Ok_inj in E; subst s'. exact S.
  - apply bind_ok in E as (s1 & E1 & E2). apply bind_ok in E1 as ([s2 b] & E1 & E3). apply Ok_inj in E3; subst s2.
    eapply IH; [|exact E2]. eapply root_run_sole; eassumption.
Qed.

Lemma def_get n d (e : ldef (defT n)) key id d' u : is_def (S n) d e -> hget key (ld_members e) = Some (id, DMil d' u) ->
  exists d0, hget key (ld_members (undef d)) = Some (id, DMil d0 u) /\ is_def n d0 d'.
Proof.
  intros H G. assert (F : Forall2 (fun a b => fst a = fst b /\ fst (snd a) = fst (snd b) /\ is_defval (is_def n) (snd (snd a)) (snd (snd b))) (ld_members (undef d)) (ld_members e)) by apply H. pose proof (forall2_hget (fun a b => fst a = fst b /\ is_defval (is_def n) (snd a) (snd b)) _ _ key F) as M. rewrite G in M.
  destruct (hget key (ld_members (undef d))) as [[i v]|]; [|contradiction]. cbn [fst snd] in M. destruct M as (-> & M). destruct v as [p vt|d0|d0 u0]; cbn [is_defval] in M; try contradiction. destruct M as (M & ->). exists d0. split; [reflexivity|exact M].
Qed.
Lemma def_get' n d (e : ldef (defT n)) key id d0 u : is_def (S n) d e -> hget key (ld_members (undef d)) = Some (id, DMil d0 u) ->
  exists d', hget key (ld_members e) = Some (id, DMil d' u) /\ is_def n d0 d'.
Proof.
  intros H G. assert (F : Forall2 (fun a b => fst a = fst b /\ fst (snd a) = fst (snd b) /\ is_defval (is_def n) (snd (snd a)) (snd (snd b))) (ld_members (undef d)) (ld_members e)) by apply H. pose proof (forall2_hget (fun a b => fst a = fst b /\ is_defval (is_def n) (snd a) (snd b)) _ _ key F) as M. rewrite G in M.
  destruct (hget key (ld_members e)) as [[i v]|]; [|contradiction]. cbn [fst snd] in M. destruct M as (<- & M). destruct v as [p vt|d'|d' u0]; cbn [is_defval] in M; try contradiction. destruct M as (M & <-). exists d'. split; [reflexivity|exact M].
Qed.
Lemma traverse_in {A B} (f : A -> option B) l l' b : traverse f l = Some l' -> In b l' -> exists a, In a l /\ f a = Some b.
Proof. intros E H. apply traverse_inv in E. induction E as [|x y l l' E F IH]; [destruct H|]. destruct H as [<-|H]; [exists x; split; [left; reflexivity|exact E]|]. destruct (IH H) as (a & I & E'). exists a. split; [right; exact I|exact E']. Qed.

Section Valid.
Variables (root : root_obj) (old : bool).

Lemma valid_sole n : forall l l' d e, is_def n d e -> mlist_of n l = Some l' -> (forall i c, In (i, c) (fst l) -> item_valid root old d c) -> soleT n l' e.
Proof.
  induction n as [|n IH]; intros l l' d e D E V; [exact Logic.I|]. cbn [mlist_of] in E. destruct (traverse _ (fst l)) as [items|] eqn:Et; [|discriminate]. apply Some_inj in E; subst l'.
  intros id it H. cbn [fst] in H. destruct (traverse_in _ _ _ _ Et H) as ([k c] & I & Ec). cbn [fst snd] in Ec. specialize (V _ _ I). destruct (item_of (mlist_of n) c) as [x|] eqn:Ei; [|discriminate]. cbn [option_map] in Ec. apply Some_inj, pair_equal_spec in Ec as [<- ->].
  unfold item_of in Ei. destruct (traverse _ (ci_values c)) as [vs|] eqn:Ev; [|discriminate]. apply Some_inj in Ei; subst it. inversion V as [d0 c0 Rv Vv Ed Ec]; subst. split; cbn [it_refs it_values].
  - intros En. destruct D as (_ & _ & De & _). cbn [undef] in De. destruct Rv as (Rv & _). rewrite (eq_trans De En) in Rv. rewrite Rv. lia.
  - intros key x i d' u G M. destruct (def_get _ _ _ _ _ _ _ D M) as (d1 & G1 & D1). cbn [undef] in G1. pose proof (traverse_get _ _ _ Ev key) as T. rewrite G in T. destruct (hget key (ci_values c)) as [v|] eqn:Gv; [|contradiction].
    destruct v as [p|cl|[m|]]; cbn [value_of] in T; try discriminate T. destruct (mlist_of n m) as [m'|] eqn:Em; [|discriminate]. injection T as ->.
    apply DiffProofs.hget_in in Gv. destruct (Vv _ _ Gv) as (_ & i2 & dv & G2 & Vd). rewrite G1 in G2. apply Some_inj, pair_equal_spec in G2 as [_ <-]. inversion Vd as [| |d2 u2 l2 next2 Vi|]; subst. eapply (IH _ _ _ _ D1 Em). exact Vi.
Qed.
Lemma valid_sole_root n (s : sabun n) def : root_valid root old -> is_rootdef (ro_default root) def -> sabun_of n (ro_sabun root) = Some s -> sole_root s def.
Proof.
  intros (_ & V) D E key l id d u G M. pose proof (traverse_get _ _ _ E key) as T. rewrite G in T. destruct (hget key (ro_sabun root)) as [v|] eqn:Gv; [|contradiction].
  destruct v as [p|[m|]]; cbn [rootsab_of] in T; try discriminate T. destruct (mlist_of n m) as [m'|] eqn:Em; [|discriminate]. injection T as ->.
  pose proof (forall2_hget (fun a b => fst a = fst b /\ is_rootval (is_def n) (snd a) (snd b)) _ _ key D) as Fd. rewrite M in Fd. destruct (hget key (ro_default root)) as [[i w]|] eqn:Gd; [|contradiction]. destruct Fd as (_ & Fd).
  destruct w as [p vt|d0 rows od|d0 cl|d0 u0]; cbn [is_rootval snd] in Fd; try contradiction. destruct Fd as (D0 & _). apply DiffProofs.hget_in in Gd. destruct (V _ _ _ Gd) as (_ & Vs). destruct (Vs _ Gv) as [(l0 & next & Es & Vi)|(Es & _)]; [|discriminate]. injection Es as ->.
  eapply valid_sole; [exact D0|exact Em|exact Vi].
Qed.

Variables (iter : forall A, hmap A -> hmap A) (n : nat) (def : rootdef n) (t : root_obj) (d : sabun n).
Hypothesis V : root_valid root old.
Hypothesis D : is_rootdef (ro_default root) def.
Hypothesis Dt : ro_default t = ro_default root.
Hypothesis Et : sabun_of n (ro_sabun t) = Some d.
Hypothesis So : sole_root d def.

(** valid, or with one reference for each enum *)
Definition counted (s : spot) : Prop :=
  item_valid root old (snd s) (fst s) \/
  exists k e it, is_def (S k) (snd s) e /\ item_of (mlist_of k) (fst s) = Some it /\ sole_item (soleT k) it e.

Lemma counted_few s : counted s -> few_refs s.
Proof.
  intros [Vs|(k & e & it & (_ & _ & De & _) & Ei & (S1 & _))] En.
  - destruct s as [c d0]. cbn [fst snd] in *. inversion Vs as [d1 c1 Rv Vv Ed Ec]; subst. cbn [undef] in En. destruct Rv as (Rv & _). rewrite En in Rv. rewrite Rv. lia.
  - pose proof (eq_trans (eq_sym De) En) as En'. unfold item_of in Ei. destruct (traverse _ (ci_values (fst s))); [|discriminate]. apply Some_inj in Ei; subst it. apply S1, En'.
Qed.

Lemma row_counted table id tb s : root_table t table = Some tb -> table_value tb id = Some s -> counted s.
Proof.
  unfold root_table. rewrite Dt. destruct (hget table (ro_default root)) as [[i [p vt|d0 rows od|d0 cl|d0 u0]]|] eqn:G; try discriminate. intros E Es. apply Some_inj in E; subst tb. unfold table_value in Es. cbn [fst snd] in Es.
  destruct (hget id rows) as [c|] eqn:Gc; [|discriminate]. apply Some_inj in Es; subst s. left. cbn [fst snd]. apply DiffProofs.hget_in in G, Gc. destruct V as (_ & V'). destruct (V' _ _ _ G) as (_ & _ & H). apply (H _ _ Gc).
Qed.
Lemma ref_counted s key x : spot_ref t s key = Ok (Some (Val x)) -> counted x.
Proof.
  unfold spot_ref. destruct (spot_ref_id s key) as [[id| |]|]; try discriminate. destruct (root_table t key) as [tb|] eqn:G; [|discriminate]. intros E. apply Ok_inj in E. destruct (table_value tb id) as [y|] eqn:Ey; [|discriminate]. injection E as <-. eapply row_counted; eassumption.
Qed.
Lemma listed_counted k l l' d0 e id c : is_def k d0 e -> mlist_of k l = Some l' -> soleT k l' e -> lookup id (fst l) = Some c -> counted (c, d0).
Proof.
  intros De E S G. destruct k as [|k]; [discriminate|]. cbn [mlist_of] in E. destruct (traverse _ (fst l)) as [items|] eqn:T; [|discriminate]. apply Some_inj in E; subst l'.
  destruct (traverse_lookup _ _ _ T) as (_ & L). specialize (L id). rewrite G in L. destruct (lookup id items) as [it|] eqn:Gi; [|contradiction]. right. exists k, e, it. split; [exact De|]. split; [exact L|]. apply (S id). cbn [fst]. apply lookup_in', Gi.
Qed.

Lemma visit_counted w : forall s, visit iter t w = Ok (Some s) -> counted s.
Proof.
  induction w as [tb id|l i|l id|w IH key i|w IH key id|w IH key|w IH key]; intros s E; cbn [visit] in E.
  - apply bind_ok in E as (x & E1 & E). apply bind_ok in E as (y & E2 & E). apply Ok_inj, Some_inj in E; subst y. destruct (root_table t tb) as [x'|] eqn:G; [|discriminate]. apply Ok_inj in E1; subst x'. destruct (table_value x id) as [y|] eqn:Gy; [|discriminate]. apply Ok_inj in E2; subst y. eapply row_counted; eassumption.
  - apply bind_ok in E as (x & E1 & E). apply bind_ok in E as (y & E2 & E). apply Ok_inj, Some_inj in E; subst y. unfold root_clist in E1. rewrite Dt in E1. destruct (hget l (ro_default root)) as [[j [p vt|d0 rows od|d0 cl|d0 u0]]|] eqn:G; try discriminate. apply Ok_inj in E1; subst x.
    unfold clist_value in E2. cbn [fst snd] in E2. destruct (nth_error cl i) as [c|] eqn:Gc; [|discriminate]. apply Ok_inj in E2; subst s. left. apply nth_error_In in Gc. apply DiffProofs.hget_in in G. destruct V as (_ & V'). destruct (V' _ _ _ G) as (_ & H). apply (H _ Gc).
  - rewrite Dt in E. destruct (hget l (ro_default root)) as [[j [p vt|d0 rows od|d0 cl|d0 u0]]|] eqn:G; try discriminate. apply bind_ok in E as (x & E1 & E). apply Ok_inj in E. unfold get_list in E1. apply bind_ok in E1 as (y & E1 & E2).
    unfold root_mlist in E1. rewrite Dt, G in E1. destruct (hget l (ro_sabun t)) as [[p|o]|] eqn:Gs; try discriminate. apply Ok_inj in E1; subst y. cbn [fst] in E2. destruct o as [m|]; [|cbn [option_map] in E2; destruct u0; [apply Ok_inj in E2; subst x; discriminate E|discriminate]].
    cbn [option_map] in E2. apply Ok_inj in E2; subst x. unfold item_of_list, mlist_item in E. cbn [fst snd] in E. destruct (lookup id (fst m)) as [c|] eqn:Gc; [|discriminate]. apply Some_inj in E; subst s.
    pose proof (traverse_get _ _ _ Et l) as T. rewrite Gs in T. destruct (hget l d) as [v|] eqn:Gv; [|contradiction]. cbn [rootsab_of] in T. destruct (mlist_of n m) as [m'|] eqn:Em; [|discriminate]. apply Some_inj in T; subst v.
    pose proof (forall2_hget (fun a b => fst a = fst b /\ is_rootval (is_def n) (snd a) (snd b)) _ _ l D) as Fd. rewrite G in Fd. destruct (hget l def) as [[i w]|] eqn:Gd; [|contradiction]. destruct Fd as (_ & Fd). destruct w as [p vt| | |e u]; cbn [is_rootval snd] in Fd; try contradiction. destruct Fd as (De & _).
    eapply listed_counted; [exact De|exact Em|eapply So; eassumption|exact Gc].
  - apply bind_ok in E as ([x|] & E0 & E); [|discriminate]. specialize (IH _ E0). apply bind_ok in E as (y & E1 & E). apply bind_ok in E as (z & E2 & E). apply Ok_inj, Some_inj in E; subst z. unfold clist_value in E2. destruct (nth_error (fst y) i) as [c|] eqn:Gc; [|discriminate]. apply Ok_inj in E2; subst s. apply nth_error_In in Gc.
    unfold spot_cil in E1. destruct (hget key (ld_members (undef (snd x)))) as [[j [p vt|d0|d0 u0]]|] eqn:G; try discriminate.
    destruct (hget key (ci_values (fst x))) as [v|] eqn:Gv; [|apply Ok_inj in E1; subst y; destruct Gc]. destruct v as [p|cl|o]; try (apply Ok_inj in E1; subst y; destruct Gc). apply Ok_inj in E1; subst y. cbn [fst snd] in *.
    destruct IH as [Vx|(k & e & it & De & Ei & _)].
    + destruct x as [c1 d1]. cbn [fst snd] in *. inversion Vx as [d2 c2 Rv Vv Ed Ec]; subst. apply DiffProofs.hget_in in Gv. destruct (Vv _ _ Gv) as (_ & i2 & dv & G2 & Vd). cbn [undef] in G. rewrite G in G2. apply Some_inj, pair_equal_spec in G2 as [_ <-]. inversion Vd as [|d3 l3 Vl| |]; subst. left. apply Vl, Gc.
    + unfold item_of in Ei. destruct (traverse _ (ci_values (fst x))) as [vs|] eqn:T; [|discriminate]. pose proof (traverse_get _ _ _ T key) as T'. rewrite Gv in T'. destruct (hget key vs); [discriminate T'|contradiction].
  - apply bind_ok in E as ([x|] & E0 & E); [|discriminate]. specialize (IH _ E0). destruct (hget key (ld_members (undef (snd x)))) as [[j [p vt|d0|d0 u0]]|] eqn:G; try discriminate. apply bind_ok in E as (y & E1 & E). apply Ok_inj in E.
    unfold get_list in E1. apply bind_ok in E1 as (z & E1 & E2). unfold spot_mil in E1. rewrite G in E1.
    assert (Ex : exists m, hget key (ci_values (fst x)) = Some (VMil (Some m)) /\ y = (Some (fst m), d0)).
    { assert (Empty : forall dd, y = (Some [], dd) -> False) by (intros dd ->; discriminate E).
      destruct (hget key (ci_values (fst x))) as [[p|cl|[m|]]|]; apply Ok_inj in E1; subst z; cbn [fst option_map] in E2; try (apply Ok_inj in E2; symmetry in E2; destruct (Empty _ E2)).
      - apply Ok_inj in E2; subst y. exists m. split; reflexivity.
      - destruct u0; [apply Ok_inj in E2; subst y; discriminate E|discriminate]. }
    clear E1 E2. destruct Ex as (m & Gv & ->). unfold item_of_list, mlist_item in E. cbn [fst snd] in E. destruct (lookup id (fst m)) as [c|] eqn:Gc; [|discriminate]. apply Some_inj in E; subst s.
    destruct IH as [Vx|(k & e & it & De & Ei & Sx)].
    + destruct x as [c1 d1]. cbn [fst snd] in *. inversion Vx as [d2 c2 Rv Vv Ed Ec]; subst. apply DiffProofs.hget_in in Gv. destruct (Vv _ _ Gv) as (_ & i2 & dv & G2 & Vd). cbn [undef] in G. rewrite G in G2. apply Some_inj, pair_equal_spec in G2 as [_ <-]. inversion Vd as [| |d3 u3 l3 next3 Vl|]; subst. left. apply lookup_in' in Gc. eapply Vl, Gc.
    + destruct (def_get' _ _ _ _ _ _ _ De G) as (e' & Ge & De'). unfold item_of in Ei. destruct (traverse _ (ci_values (fst x))) as [vs|] eqn:T; [|discriminate]. apply Some_inj in Ei; subst it. pose proof (traverse_get _ _ _ T key) as T'. rewrite Gv in T'. destruct (hget key vs) as [v|] eqn:Gw; [|contradiction].
      cbn [value_of] in T'. destruct (mlist_of k m) as [m'|] eqn:Em; [|discriminate]. apply Some_inj in T'; subst v. destruct Sx as (_ & Sx). eapply listed_counted; [exact De'|exact Em|eapply Sx; [exact Gw|exact Ge]|exact Gc].
  - apply bind_ok in E as ([x|] & E0 & E); [|discriminate]. apply bind_ok in E as (q & E1 & E). apply Ok_inj in E. destruct q as [y| |]; try discriminate. apply Some_inj in E; subst y. unfold get_ref in E1. destruct (ld_enum (undef (snd x))); [discriminate|]. destruct (hget key (ld_refs (undef (snd x)))) as [[j [q vt]]|]; [|discriminate].
    apply bind_ok in E1 as (o & E1 & E2). destruct o as [[y| |]|]; cbn in E2; destruct vt; try discriminate; apply Ok_inj in E2; injection E2 as ->; eapply ref_counted, E1.
  - apply bind_ok in E as ([x|] & E0 & E); [|discriminate]. apply bind_ok in E as (e & E1 & E). apply Ok_inj in E. destruct (eqb_bytes (fst e) key); [|discriminate]. apply Some_inj in E; subst s. unfold get_enum in E1. destruct (ld_enum (undef (snd x))); [|discriminate].
    apply bind_ok in E1 as (f & _ & E1). apply bind_ok in E1 as (o & E1 & E2). apply bind_ok in E2 as (q & E2 & E3). destruct o as [o|]; [|discriminate]. apply Ok_inj in E2; subst q. destruct o as [y| |]; try discriminate. destruct (is_some _); [|discriminate]. apply Ok_inj in E3; subst e. cbn [snd]. eapply ref_counted, E1.
Qed.
End Valid.

Lemma answers_same root old n (def : rootdef n) t (d x : sabun n) : root_valid root old -> is_rootdef (ro_default root) def -> ro_default t = ro_default root ->
  sabun_of n (ro_sabun t) = Some d -> sole_root d def -> DiffSpec.same_root true false x d -> clean_root d -> clean_root x ->
  forall saver reader q, iterates saver -> iterates reader -> same_told (ask saver t q) (ask reader (with_members root x) q).
Proof.
  intros V D Dt Et So Sx (_ & Cd) (_ & Cx) saver reader q Is Ir. apply ask_same; [exact Is|exact Ir|symmetry; exact Dt| |].
  - intros key. cbn [with_members ro_sabun]. rewrite plain_get. pose proof (traverse_get _ _ _ Et key) as T. specialize (Sx key).
    destruct (hget key (ro_sabun t)) as [v|]; destruct (hget key d) as [w|] eqn:Gd; try contradiction; destruct (hget key x) as [y|] eqn:Gx; cbn [same_opt] in Sx; try contradiction; [|exact Logic.I].
    destruct v as [p|[m|]]; cbn [rootsab_of] in T.
    + apply Some_inj in T; subst w. destruct y as [b|o]; cbn [same_rootval] in Sx; try contradiction. apply same_param_sym, Sx.
    + destruct (mlist_of n m) as [m'|] eqn:Em; [|discriminate]. apply Some_inj in T; subst w. destruct y as [b|[o|]]; cbn [same_rootval same_opt] in Sx; try contradiction. cbn [option_map]. exists n.
      eapply list_alike; [exact Em|exact Sx|apply (Cd _ _ Gd)|apply (Cx _ _ Gx)].
    + apply Some_inj in T; subst w. destruct y as [b|[o|]]; cbn [same_rootval same_opt] in Sx; try contradiction. exact Logic.I.
  - intros w s H. eapply counted_few, (visit_counted root old saver n def t d V D Dt Et So w s H).
Qed.

Lemma plain_answers root n (d x : sabun n) nx saver reader q : DiffSpec.same_root true nx x d -> clean_root d -> clean_root x ->
  iterates saver -> iterates reader -> (forall w s, visit saver (with_members root d) w = Ok (Some s) -> few_refs s) ->
  same_told (ask saver (with_members root d) q) (ask reader (with_members root x) q).
Proof.
  intros Sx (_ & Cd) (_ & Cx) Is Ir Fe. apply ask_same; [exact Is|exact Ir|reflexivity| |exact Fe].
  intros key. cbn [with_members ro_sabun]. rewrite !plain_get. specialize (Sx key). destruct (hget key d) as [w|] eqn:Gd; destruct (hget key x) as [y|] eqn:Gx; cbn [same_opt] in Sx; try contradiction; [|exact Logic.I].
  destruct w as [p|[m|]], y as [b|[o|]]; cbn [same_rootval same_opt] in Sx; try contradiction; cbn [option_map].
  - apply same_param_sym, Sx.
  - exists n. eapply plain_alike; [exact Sx|apply (Cd _ _ Gd)|apply (Cx _ _ Gx)].
  - exact Logic.I.
Qed.
