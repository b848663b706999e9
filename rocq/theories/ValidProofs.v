(** Validation accepts exactly the valid documents (C42). *)
From Verif Require Import Base StringCompactionModel StringCompactionProofs LinkedModel LinkedSpec LinkedProofs3 DocModel DiffProofs
  ArchiveModel JsonModel JsonSpec JsonProofs ValidModel ValidSpec.

(* ------------------------------------------------------------------ *)
(** * Loops *)

Lemma all_ok_cons r l : all_ok (r :: l) = bind r (fun _ => all_ok l).
Proof. unfold all_ok. cbn. destruct r as [[]| |]; reflexivity. Qed.

Lemma all_ok_iff l : all_ok l = Ok tt <-> Forall (eq (Ok tt)) l.
Proof.
  induction l as [|r l IH]; [split; [constructor|reflexivity]|]. rewrite all_ok_cons. destruct r as [[]| |]; cbn [bind].
  - rewrite IH. split; [intros H; constructor; [reflexivity|exact H]|intros H; inversion H; assumption].
  - split; [discriminate|intros H; inversion H; discriminate].
  - split; [discriminate|intros H; inversion H; discriminate].
Qed.

Lemma all_ok_panic l : Forall (fun r => r <> Panic) l -> all_ok l <> Panic.
Proof.
  induction 1 as [|r l H F IH]; [discriminate|]. rewrite all_ok_cons. destruct r as [[]| |]; cbn [bind]; [exact IH|discriminate|congruence].
Qed.

Lemma all_ok_map {A} (f : A -> res unit) l (P : A -> Prop) : (forall a, In a l -> (f a = Ok tt <-> P a)) ->
  (all_ok (map f l) = Ok tt <-> forall a, In a l -> P a).
Proof.
  intros H. rewrite all_ok_iff, Forall_map, Forall_forall. split; intros G a I; [apply H; [exact I|symmetry; apply G, I]|symmetry; apply H; [exact I|apply G, I]].
Qed.
Lemma all_ok_map_panic {A} (f : A -> res unit) l : (forall a, In a l -> f a <> Panic) -> all_ok (map f l) <> Panic.
Proof. intros H. apply all_ok_panic. rewrite Forall_map, Forall_forall. exact H. Qed.

Lemma seq_ok (r s : res unit) : bind r (fun _ => s) = Ok tt <-> r = Ok tt /\ s = Ok tt.
Proof. destruct r as [[]| |]; cbn; intuition discriminate. Qed.
Lemma seq_panic (r s : res unit) : r <> Panic -> s <> Panic -> bind r (fun _ => s) <> Panic.
Proof. destruct r as [[]| |]; cbn; congruence. Qed.

Lemma visit_collect step fuel : forall c l, LinkedModel.collect step fuel c = Ok l -> visit step fuel c = all_ok (map snd l).
Proof.
  induction fuel as [|fuel IH]; intros c l; cbn [LinkedModel.collect visit]; [discriminate|]. destruct (step c) as [[x c']| |]; cbn [bind]; try discriminate.
  destruct x as [[i r]|].
  - intros H. apply bind_ok in H as (l' & E & H). apply Ok_inj in H; subst l. cbn [map snd]. rewrite all_ok_cons, (IH _ _ E). destruct r as [[]| |]; reflexivity.
  - intros H. apply Ok_inj in H; subst l. reflexivity.
Qed.

Lemma boxes_in {A} (l : list A) : forall i a, In a (boxes i l) -> i <= a.
Proof. induction l as [|x l IH]; intros i a; cbn; [intros []|]. intros [<-|I]; [lia|]. apply IH in I. lia. Qed.
Lemma boxes_nodup {A} (l : list A) : forall i, NoDup (boxes i l).
Proof. induction l as [|x l IH]; intros i; cbn; constructor; [|apply IH]. intros I. apply boxes_in in I. lia. Qed.
Lemma boxes_length {A} (l : list A) : forall i, length (boxes i l) = length l.
Proof. induction l as [|x l IH]; intros i; cbn; [reflexivity|]. rewrite IH. reflexivity. Qed.

(** with different ids the loop visits every item in order *)
Lemma visit_linked_all l next : NoDup (map fst l) -> visit_linked l next = all_ok (map snd l).
Proof.
  intros N. destruct (construct_ok (fun _ => None) l next (boxes 1 l)) as (h & m & E & R & _ & _).
  - exact N.
  - split; [apply boxes_nodup|]. split; [intros I; apply boxes_in in I; lia|reflexivity].
  - apply boxes_length.
  - unfold visit_linked. rewrite E. cbn [bind]. pose proof (fwd_all _ _ _ R) as C. unfold collect_fwd in C. rewrite (visit_collect _ _ _ _ C).
    rewrite combine_snd by apply boxes_length. reflexivity.
Qed.

(* ------------------------------------------------------------------ *)
(** * Parts *)

Lemma has_name_iff k l : has_name k l = true <-> In k l.
Proof.
  unfold has_name. rewrite existsb_exists. split; [intros (x & I & E); apply eqb_bytes_eq in E; subst; exact I|].
  intros I. exists k. split; [exact I|apply eqb_bytes_refl].
Qed.

Lemma is_some_iff {A} (o : option A) : is_some o = true <-> exists a, o = Some a.
Proof. destruct o; cbn; split; eauto; [discriminate|intros (a & H); discriminate]. Qed.

Lemma acceptable_iff {T} vt (q : qv T) : acceptable vt (qv_type_of q) = true <-> allows vt q.
Proof. destruct vt, q; cbn; intuition discriminate. Qed.
Lemma acceptable_param_iff vt p : acceptable vt (param_qv_type p) = true <-> allows_param vt p.
Proof. destruct p; apply acceptable_iff. Qed.
Lemma param_acceptable_iff p q : param_acceptable p q = true <-> type_of q = type_of p.
Proof. unfold param_acceptable. destruct (type_of p), (type_of q); split; (reflexivity || discriminate). Qed.

Lemma validate_old_iff {A} old (m : hmap A) : validate_old old m = Ok tt <-> forall k, In k old -> exists e, hget k m = Some e.
Proof.
  unfold validate_old. rewrite (all_ok_map _ old (fun k => exists e, hget k m = Some e)); [reflexivity|].
  intros k _. rewrite <- is_some_iff. destruct (is_some (hget k m)); split; (reflexivity || discriminate).
Qed.
Lemma validate_old_panic {A} old (m : hmap A) : validate_old old m <> Panic.
Proof. apply all_ok_map_panic. intros k _. destruct (is_some (hget k m)); discriminate. Qed.

Lemma validate_ref_def_iff d : validate_ref_def d = Ok tt <->
  (ld_enum d = true -> forall key id q vt, In (key, (id, (q, vt))) (ld_refs d) -> q = Null) /\
  (forall key, In key (ld_ref_old d) -> exists e, hget key (ld_refs d) = Some e).
Proof.
  unfold validate_ref_def. rewrite seq_ok, validate_old_iff. apply and_iff_compat_r. destruct (ld_enum d).
  - rewrite (all_ok_map _ (ld_refs d) (fun e => fst (snd (snd e)) = Null)).
    + split; [intros H _ key id q vt I; apply (H _ I)|]. intros H [key [id [q vt]]] I. apply (H eq_refl _ _ _ _ I).
    + intros [key [id [q vt]]] _. cbn. destruct q; split; (reflexivity || discriminate).
  - split; [discriminate|reflexivity].
Qed.
Lemma validate_ref_def_panic d : validate_ref_def d <> Panic.
Proof.
  apply seq_panic; [|apply validate_old_panic]. destruct (ld_enum d); [|discriminate]. apply all_ok_map_panic. intros [key [id [q vt]]] _. cbn. destruct q; discriminate.
Qed.

Lemma list_def_iff b n : forall d, (def_depth d <= n)%nat -> (validate_list_def b d = Ok tt <-> def_valid b d) /\ validate_list_def b d <> Panic.
Proof.
  induction n as [|n IH]; intros [d] D; [cbn in D; lia|].
  assert (Sub : forall key id v, In (key, (id, v)) (ld_members d) -> match v with DParam _ _ => True | DCil d' => (def_depth d' <= n)%nat | DMil d' _ => (def_depth d' <= n)%nat end).
  { intros key id v I. cbn [def_depth] in D. apply (list_max_in (fun e => let '(_, (_, v)) := e in
      match v with DParam _ _ => O | DCil d => def_depth d | DMil d _ => def_depth d end)) in I. cbn in I. destruct v; lia. }
  cbn [validate_list_def]. split.
  - rewrite !seq_ok, validate_ref_def_iff, validate_old_iff.
    rewrite (all_ok_map _ (ld_members d) (fun e => match snd (snd e) with DParam _ _ => True | DCil d' => b = false /\ def_valid b d' | DMil d' _ => b = true /\ def_valid b d' end)).
    + split.
      * intros ((A1 & A2) & A3 & A4). constructor; try assumption; intros key id d' *; [intros I|intros I|intros I|intros I]; apply (A4 _ I).
      * intros V. inversion V as [d0 B1 B2 B3 B4 B5 B6 B7]; subst d0. split; [auto|]. split; [assumption|]. intros [key [id v]] I. cbn. destruct v; eauto.
    + intros [key [id v]] I. cbn. specialize (Sub _ _ _ I). destruct v as [p vt|d'|d' u]; [split; auto| |].
      * destruct b; [split; [discriminate|intros [? _]; discriminate]|]. destruct (IH d' Sub) as [E _]. rewrite E. tauto.
      * destruct b; [|split; [discriminate|intros [? _]; discriminate]]. destruct (IH d' Sub) as [E _]. rewrite E. tauto.
  - apply seq_panic; [apply validate_ref_def_panic|]. apply seq_panic; [apply validate_old_panic|]. apply all_ok_map_panic.
    intros [key [id v]] I. specialize (Sub _ _ _ I). destruct v as [p vt|d'|d' u]; [discriminate| |]; destruct b; try discriminate; apply (IH d' Sub).
Qed.
Lemma validate_list_def_iff b d : validate_list_def b d = Ok tt <-> def_valid b d.
Proof. apply (list_def_iff b (def_depth d)). lia. Qed.
Lemma validate_list_def_panic b d : validate_list_def b d <> Panic.
Proof. apply (list_def_iff b (def_depth d)). lia. Qed.

Section Root.
Variable root : root_obj.
Variable can : bool.

Lemma not_old_iff old k : (negb can && has_name k old = false) <-> usable can old k.
Proof.
  unfold usable. rewrite <- has_name_iff. destruct can, (has_name k old); cbn; intuition congruence.
Qed.

Lemma if_err (b : bool) r : (if b then Err else r) = Ok tt <-> b = false /\ r = Ok tt.
Proof. destruct b; intuition discriminate. Qed.

Lemma validate_refs_iff d refs : validate_refs root can d refs = Ok tt <-> refs_valid root can d refs.
Proof.
  unfold validate_refs, refs_valid. rewrite seq_ok.
  assert (L : ((if ld_enum d then if zlen refs =? 1 then Ok tt else Err
        else all_ok (map (fun e => let '(nm, (_, (q, _))) := e in
               if is_some (hget nm refs) then Ok tt
               else match q with Val v => if is_nil v then Err else Ok tt | _ => Ok tt end) (ld_refs d))) = Ok tt) <->
     (if ld_enum d then length refs = 1%nat
      else forall key id vt, In (key, (id, (Val [], vt))) (ld_refs d) -> exists q, hget key refs = Some q)).
  { destruct (ld_enum d).
    - unfold zlen. destruct (Z.eqb_spec (Z.of_nat (length refs)) 1); split; intros H; try reflexivity; try discriminate; lia.
    - rewrite (all_ok_map _ (ld_refs d) (fun e => fst (snd (snd e)) = Val [] -> exists q, hget (fst e) refs = Some q)).
      + split; [intros H key id vt I; apply (H _ I); reflexivity|]. intros H [key [id [q vt]]] I. cbn. intros ->. apply (H _ _ _ I).
      + intros [key [id [q vt]]] _. cbn. rewrite <- is_some_iff. destruct (is_some (hget key refs)); [split; auto|].
        destruct q as [[|c s]| |]; cbn; split; try reflexivity; try discriminate. intros H. specialize (H eq_refl). discriminate. }
  rewrite L. apply and_iff_compat_l.
  rewrite (all_ok_map _ refs (fun e => usable can (ld_ref_old d) (fst e) /\ resolved root can (fst e) (snd e) /\
    exists id q0 vt, hget (fst e) (ld_refs d) = Some (id, (q0, vt)) /\ allows vt (snd e))).
  { split; [intros H key q I; apply (H _ I)|intros H [key q] I; apply (H _ _ I)]. }
  intros [key q] _. cbn [fst snd]. rewrite if_err, not_old_iff. apply and_iff_compat_l.
  destruct (hget key (ld_refs d)) as [[id [q0 vt]]|]; [|split; [discriminate|intros (_ & ? & ? & ? & ? & _); discriminate]].
  rewrite if_err. rewrite negb_false_iff, acceptable_iff.
  assert (X : (exists id1 q1 vt1, Some (id, (q0, vt)) = Some (id1, (q1, vt1)) /\ allows vt1 q) <-> allows vt q).
  { split; [intros (? & ? & ? & E & A); injection E as <- <- <-; exact A|eauto 6]. }
  rewrite X. rewrite and_comm. apply and_iff_compat_r. destruct q as [i| |]; cbn [resolved]; [|tauto|tauto].
  rewrite if_err. destruct i as [|c i]; [cbn; split; [intros [? _]; discriminate|intros [H _]; congruence]|].
  cbn [is_nil]. set (s := c :: i). destruct (hget key (ro_default root)) as [[n [p vt'|d' rows old|d' l|d' u]]|].
  all: try (split; [intros [_ ?]; discriminate|intros (_ & ? & ? & ? & ? & ? & E & _); discriminate]).
  rewrite !if_err, negb_false_iff, is_some_iff, not_old_iff. split.
  - intros (_ & (row & Hr) & U & _). split; [discriminate|]. exists n, d', rows, old, row. auto.
  - intros (_ & n' & d1 & rows1 & old1 & row & E & Hr & U). injection E as <- <- <- <-. split; [reflexivity|]. split; [eauto|]. split; [exact U|reflexivity].
Qed.

Lemma validate_refs_panic d refs : validate_refs root can d refs <> Panic.
Proof.
  apply seq_panic.
  - destruct (ld_enum d); [destruct (zlen refs =? 1); discriminate|]. apply all_ok_map_panic. intros [key [id [q vt]]] _.
    destruct (is_some (hget key refs)); [discriminate|]. destruct q as [s| |]; try discriminate. destruct (is_nil s); discriminate.
  - apply all_ok_map_panic. intros [key q] _. destruct (negb can && has_name key (ld_ref_old d)); [discriminate|].
    destruct (hget key (ld_refs d)) as [[id [q0 vt]]|]; [|discriminate]. destruct (negb (acceptable vt (qv_type_of q))); [discriminate|].
    destruct q as [s| |]; try discriminate. destruct (is_nil s); [discriminate|].
    destruct (hget key (ro_default root)) as [[n [p vt'|d' rows old|d' l|d' u]]|]; try discriminate.
    destruct (negb (is_some (hget s rows))); [discriminate|]. destruct (negb can && has_name s old); discriminate.
Qed.

(* ------------------------------------------------------------------ *)
(** * Items *)

Lemma map_fst_pairs (l : list (Z * citem)) d : map fst (map (fun e => let '(id, it) := e in (id, validate_list_item root can it d)) l) = map fst l.
Proof. rewrite map_map. apply map_ext. intros [? ?]; reflexivity. Qed.
Lemma map_snd_pairs (l : list (Z * citem)) d : map snd (map (fun e => let '(id, it) := e in (id, validate_list_item root can it d)) l) =
  map (fun e => validate_list_item root can (snd e) d) l.
Proof. rewrite map_map. apply map_ext. intros [? ?]; reflexivity. Qed.

Lemma item_iff c : distinct_ids c -> forall d,
  (validate_list_item root can c (undef d) = Ok tt <-> item_valid root can d c) /\ validate_list_item root can c (undef d) <> Panic.
Proof.
  induction 1 as [c Hc IHc Hn Hm IHm]. intros [d]. cbn [undef]. destruct c as [values refs]. cbn [ci_values] in *. cbn [validate_list_item]. split.
  - rewrite seq_ok, validate_refs_iff.
    rewrite (all_ok_map _ values (fun e => usable can (ld_old d) (fst e) /\ exists id dv, hget (fst e) (ld_members d) = Some (id, dv) /\ value_valid root can dv (snd e))).
    { split.
      - intros [A B]. constructor; [exact A|]. intros key v I. apply (B _ I).
      - intros V. inversion V as [d0 c0 A B E1 E2]; subst d0 c0. split; [exact A|]. intros [key v] I. apply (B _ _ I). }
    intros [key v] I. cbn [fst snd]. rewrite if_err, not_old_iff. apply and_iff_compat_l.
    destruct (hget key (ld_members d)) as [[id dv]|]; [|split; [discriminate|intros (? & ? & ? & _); discriminate]].
    assert (X : (exists id1 dv1, Some (id, dv) = Some (id1, dv1) /\ value_valid root can dv1 v) <-> value_valid root can dv v).
    { split; [intros (? & ? & E & A); injection E as <- <-; exact A|eauto]. }
    rewrite X, if_err, negb_false_iff. clear X. destruct dv as [p vt|d1|d1 u], v as [q|l|[[l next]|]]; cbn [def_acceptable];
      try (split; [intros [? _]; discriminate|intros V; inversion V]).
    + rewrite andb_true_iff, param_acceptable_iff, acceptable_param_iff. split; [intros [[A B] _]; constructor; assumption|].
      intros V; inversion V as [? ? ? A B| | |]; subst. auto.
    + rewrite (all_ok_map _ l (fun c => item_valid root can d1 c)) by (intros c1 I1; apply (IHc _ _ _ I I1)).
      split; [intros [_ H]; constructor; exact H|]. intros V; inversion V as [|? ? H| |]; subst. auto.
    + rewrite visit_linked_all by (rewrite map_fst_pairs; apply (Hn _ _ _ I)). rewrite map_snd_pairs.
      rewrite (all_ok_map _ l (fun e => item_valid root can d1 (snd e))) by (intros [i c1] I1; apply (IHm _ _ _ _ _ I I1)).
      split; [intros [_ H]; constructor; intros i c1 I1; apply (H _ I1)|].
      intros V; inversion V as [| |? ? ? ? H|]; subst. split; [destruct u; reflexivity|]. intros [i c1] I1. apply (H _ _ I1).
    + destruct u; cbn.
      * split; [intros _; constructor|auto].
      * split; [intros [? _]; discriminate|intros V; inversion V].
  - apply seq_panic; [apply validate_refs_panic|]. apply all_ok_map_panic. intros [key v] I.
    destruct (negb can && has_name key (ld_old d)); [discriminate|]. destruct (hget key (ld_members d)) as [[id dv]|]; [|discriminate].
    destruct (def_acceptable dv v) eqn:A; [|discriminate]. cbn [negb].
    destruct dv as [p vt|d1|d1 u], v as [q|l|[[l next]|]]; try discriminate.
    + apply all_ok_map_panic. intros c1 I1. apply (IHc _ _ _ I I1).
    + rewrite visit_linked_all by (rewrite map_fst_pairs; apply (Hn _ _ _ I)). rewrite map_snd_pairs. apply all_ok_map_panic. intros [i c1] I1. apply (IHm _ _ _ _ _ I I1).
    + destruct u; discriminate.
Qed.

Theorem validate_root_iff : distinct_root root ->
  (validate_root root can = Ok tt <-> root_valid root can) /\ validate_root root can <> Panic.
Proof.
  intros [Di Dl]. unfold validate_root. split.
  - rewrite seq_ok, validate_old_iff. apply and_iff_compat_l.
    rewrite (all_ok_map _ (ro_default root) (fun e => let '(key, (id, v)) := e in match v with
    | WParam p vt => forall s, hget key (ro_sabun root) = Some s -> exists q, s = RParam q /\ type_of q = type_of p
    | WTable d rows old => def_valid false d /\ (forall i, In i old -> exists c, hget i rows = Some c) /\
        forall i c, In (i, c) rows -> item_valid root can d c
    | WCList d l => def_valid false d /\ forall c, In c l -> item_valid root can d c
    | WMList d u => def_valid true d /\ forall s, hget key (ro_sabun root) = Some s ->
        (exists l next, s = RMut (Some (l, next)) /\ forall i c, In (i, c) l -> item_valid root can d c) \/
        (s = RMut None /\ u = true)
    end)).
    { split; [intros H key id v I; apply (H _ I)|intros H [key [id v]] I; apply (H _ _ _ I)]. }
    intros [key [id v]] I. destruct v as [p vt|d rows old|d l|d u].
    + destruct (hget key (ro_sabun root)) as [[q|o]|]; [| |split; [discriminate|reflexivity]].
      * split; [|intros H; destruct (H _ eq_refl) as (q' & E & T); injection E as <-; apply param_acceptable_iff in T; now rewrite T].
        destruct (param_acceptable p q) eqn:A; [|discriminate]. intros _ s E. injection E as <-. exists q. split; [reflexivity|apply param_acceptable_iff, A].
      * split; [discriminate|intros H; destruct (H _ eq_refl) as (q' & E & _); discriminate].
    + rewrite seq_ok, validate_list_def_iff. unfold validate_table. rewrite seq_ok, validate_old_iff.
      rewrite (all_ok_map _ rows (fun e => item_valid root can d (snd e))).
      * apply and_iff_compat_l, and_iff_compat_l. split; [intros H i c Ic; apply (H _ Ic)|intros H [i c] Ic; apply (H _ _ Ic)].
      * intros [i c] Ic. apply item_iff, Di. exists key, id, (WTable d rows old). split; [exact I|]. eauto.
    + rewrite seq_ok, validate_list_def_iff. unfold validate_const_list. rewrite (all_ok_map _ l (fun c => item_valid root can d c)); [reflexivity|].
      intros c Ic. apply item_iff, Di. exists key, id, (WCList d l). auto.
    + rewrite seq_ok, validate_list_def_iff. apply and_iff_compat_l. destruct (hget key (ro_sabun root)) as [[q|[[l next]|]]|] eqn:G; [| | |split; [discriminate|reflexivity]].
      * split; [discriminate|]. intros H. destruct (H _ eq_refl) as [(l & next & E & _)|[E _]]; discriminate.
      * unfold validate_mut_list. cbn [fst snd]. rewrite visit_linked_all by (rewrite map_fst_pairs; apply (Dl _ _ _ _ _ _ I G)). rewrite map_snd_pairs.
        rewrite (all_ok_map _ l (fun e => item_valid root can d (snd e))).
        -- split.
           ++ intros H s E. injection E as <-. left. exists l, next. split; [reflexivity|]. intros i c Ic. apply (H _ Ic).
           ++ intros H [i c] Ic. destruct (H _ eq_refl) as [(l' & next' & E & F)|[E _]]; [|discriminate]. injection E as <- <-. apply (F _ _ Ic).
        -- intros [i c] Ic. apply item_iff, Di. exists key, id, (WMList d u). split; [exact I|]. exists l, next, i. auto.
      * destruct u; split; try discriminate; auto.
        -- intros _ s E. injection E as <-. auto.
        -- intros H. destruct (H _ eq_refl) as [(l & next & E & _)|[_ E]]; discriminate.
  - apply seq_panic; [apply validate_old_panic|]. apply all_ok_map_panic. intros [key [id v]] I. destruct v as [p vt|d rows old|d l|d u].
    + destruct (hget key (ro_sabun root)) as [[q|o]|]; try discriminate. destruct (param_acceptable p q); discriminate.
    + apply seq_panic; [apply validate_list_def_panic|]. apply seq_panic; [apply validate_old_panic|]. apply all_ok_map_panic. intros [i c] Ic.
      apply item_iff, Di. exists key, id, (WTable d rows old). split; [exact I|]. eauto.
    + apply seq_panic; [apply validate_list_def_panic|]. apply all_ok_map_panic. intros c Ic. apply item_iff, Di. exists key, id, (WCList d l). auto.
    + apply seq_panic; [apply validate_list_def_panic|]. destruct (hget key (ro_sabun root)) as [[q|[[l next]|]]|] eqn:G; try discriminate.
      * unfold validate_mut_list. cbn [fst snd]. rewrite visit_linked_all by (rewrite map_fst_pairs; apply (Dl _ _ _ _ _ _ I G)). rewrite map_snd_pairs.
        apply all_ok_map_panic. intros [i c] Ic. apply item_iff, Di. exists key, id, (WMList d u). split; [exact I|]. exists l, next, i. auto.
      * destruct u; discriminate.
Qed.

Lemma inside_valid c c' : inside c c' -> forall d, item_valid root can d c -> exists d', item_valid root can d' c'.
Proof.
  induction 1 as [c|c key l c1 c' I1 I2 In' IH|c key l next id c1 c' I1 I2 In' IH]; intros d V; [eauto| |];
    inversion V as [d0 c0 A B E1 E2]; subst; destruct (B _ _ I1) as (_ & i & dv & _ & W).
  - inversion W as [|d1 l1 H| |]; subst. apply (IH d1), H, I2.
  - inversion W as [| |d1 u l1 n1 H|]; subst. apply (IH d1), (H _ _ I2).
Qed.

Lemma root_item_valid c : root_valid root can -> root_item root c -> exists d, item_valid root can d c.
Proof.
  intros [_ V] (key & id & v & I & H). specialize (V _ _ _ I). destruct v as [p vt|d rows old|d l|d u].
  - destruct H.
  - destruct H as [i Ii]. exists d. apply V in Ii. exact Ii.
  - exists d. apply V, H.
  - destruct H as (l & next & i & G & Ii). destruct V as [_ V]. destruct (V _ G) as [(l' & n' & E & F)|[E _]]; [|discriminate].
    injection E as <- <-. exists d. apply (F _ _ Ii).
Qed.
End Root.
