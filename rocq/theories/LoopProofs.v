(** Proofs for C77. *)
From Coq Require Import String.
From Verif Require Import Base StringCompactionModel StringCompactionProofs LinkedModel LinkedSpec LinkedProofs DocModel DiffModel DiffSpec DiffProofs ArchiveModel JsonModel IntfModel GenModel GenSpec GenProofs GenWellProofs.
From Verif Require Import CodeSpec ApiModel TypeSpec TypeProofs TypeGenProofs SavedModel ReadModel AgainModel RunModel RunSpec RunProofs RunGenProofs RunWayProofs RunAskProofs RunProps WroteSpec WroteProofs ListedSpec ListedProofs CalledSpec ToldSpec ToldProofs LoopModel LoopSpec.

Local Notation text := (list Z).
Local Notation "! s" := (txt s%string) (at level 0, s at level 0).

(** * Nodes *)

Lemma behind_split (l1 : list (Z * citem)) id c l2 : ~ In id (map fst l1) -> node_behind id (l1 ++ (id, c) :: l2) = option_map fst (hd_error l2).
Proof.
  induction l1 as [|(k, x) l1 IH]; cbn [app node_behind map fst In]; intros N; [rewrite Z.eqb_refl; reflexivity|].
  destruct (Z.eqb_spec id k) as [->|_]; [destruct (N (or_introl eq_refl))|]. apply IH. intros I. apply N. right. exact I.
Qed.
Lemma lookup_split (l1 : list (Z * citem)) id c l2 : ~ In id (map fst l1) -> lookup id (l1 ++ (id, c) :: l2) = Some c.
Proof.
  induction l1 as [|(k, x) l1 IH]; cbn [app lookup map fst In]; intros N; [rewrite Z.eqb_refl; reflexivity|].
  destruct (Z.eqb_spec id k) as [->|_]; [destruct (N (or_introl eq_refl))|]. apply IH. intros I. apply N. right. exact I.
Qed.
Lemma lookup_in (l : list (Z * citem)) id c : NoDup (map fst l) -> In (id, c) l -> lookup id l = Some c.
Proof.
  intros N I. apply in_split in I as (l1 & l2 & ->). apply lookup_split. rewrite map_app in N. cbn [map fst] in N. apply NoDup_remove_2 in N. intros X. apply N, in_or_app. left. exact X.
Qed.
Lemma lookup_ids (l : list (Z * citem)) id : is_some (lookup id l) = true <-> In id (map fst l).
Proof.
  induction l as [|(k, x) l IH]; cbn [lookup map fst In]; [split; [discriminate|intros []]|]. destruct (Z.eqb_spec id k) as [->|N]; [split; [auto|reflexivity]|].
  rewrite IH. split; [auto|]. intros [->|I]; [contradiction|exact I].
Qed.
Lemma end_ids (l : list (Z * citem)) : option_map fst (hd_error l) = hd_error (map fst l).
Proof. destruct l; reflexivity. Qed.
Lemma end_iff (o : option (Z * citem)) id x : option_map fst o = x -> (Some (is_end o (Some id)) = Some true <-> x = Some id).
Proof.
  intros <-. destruct o as [(k, c)|]; cbn [is_end option_map fst]; [|split; discriminate]. destruct (Z.eqb_spec id k) as [->|N]; [split; reflexivity|]. split; [discriminate|]. intros E. injection E as ->. contradiction.
Qed.

Section Hand.
Variable p : list CodeSpec.item.
Variable iter : forall A, hmap A -> hmap A.
Variable r : root_obj.
Variable told : effect -> bool.
Variable back : bool.
Variables g n : text.
Variable a : loc.
Variable key : name.
Variable d : def.
Local Notation items := (items_now r a key).
(** what the items are given as *)
Variable value : Z -> citem -> val.
Hypothesis V : forall id c w, conv (fun k => converted p (eval p iter r told k) g n (PItem (a ++ [(key, id)]) (c, d))) w (Ok (value id c, w)).
Definition order : list (Z * citem) := if back && eqb_bytes g !"MItemConst" then rev items else items.

Lemma hand_item id c : lookup id items = Some c -> hands p iter r told back (MIter g n a key d (Some id)) (some (VPair (VNum id) (value id c))) (MIter g n a key d (node_behind id order)).
Proof.
  intros L tr. eapply conv_ext; [|eapply (conv_seq (fun k => converted p (eval p iter r told k) g n (PItem (a ++ [(key, id)]) (c, d)))
    (fun k v => ret (some (VPair (VNum id) v), MIter g n a key d (node_behind id order)))); [apply V|cbn [and_then]; apply conv_now; reflexivity]].
  intros k. cbn [step_iter]. rewrite L. reflexivity.
Qed.
Lemma hand_end : hands p iter r told back (MIter g n a key d None) none (MIter g n a key d None).
Proof. intros tr. exists O. intros k _. reflexivity. Qed.

Lemma current_item id c tr : lookup id items = Some c -> exists k0, forall k, (k0 <= k)%nat -> current p r (eval p iter r told k) (MIter g n a key d (Some id)) tr = Ok (some (VPair (VNum id) (value id c)), tr).
Proof.
  intros L. eapply conv_ext; [|eapply (conv_seq (fun k => converted p (eval p iter r told k) g n (PItem (a ++ [(key, id)]) (c, d)))
    (fun k v => ret (some (VPair (VNum id) v)))); [apply V|cbn [and_then]; apply conv_now; reflexivity]].
  intros k. cbn [current]. rewrite L. reflexivity.
Qed.
Lemma show_item id c : lookup id items = Some c -> shows p iter r told (map fst items) (Some (VPair (VNum id) (value id c))) (MIter g n a key d (Some id)).
Proof.
  intros L. split; [intros tr; apply current_item, L|]. split; [reflexivity|]. exists id, (value id c). split; [reflexivity|]. split; [apply lookup_ids; rewrite L; reflexivity|]. split.
  - apply (end_iff (hd_error items)), end_ids.
  - apply (end_iff (hd_error (rev items))). rewrite <- map_rev. apply end_ids.
Qed.
Lemma show_end : shows p iter r told (map fst items) None (MIter g n a key d None).
Proof. split; [intros tr; exists O; intros k _; reflexivity|]. split; [reflexivity|]. split; reflexivity. Qed.

Lemma visit_rest : NoDup (map fst items) -> forall l2 l1, order = l1 ++ l2 ->
  visits p iter r told (shows p iter r told (map fst items)) back (MIter g n a key d (option_map fst (hd_error l2))) (map (fun e => VPair (VNum (fst e)) (value (fst e) (snd e))) l2).
Proof.
  intros N. assert (NO : NoDup (map fst order)) by (unfold order; destruct (back && _); [rewrite map_rev; apply NoDup_rev, N|exact N]).
  assert (LO : forall id c, In (id, c) order -> lookup id items = Some c).
  { intros id c I. apply lookup_in; [exact N|]. unfold order in I. destruct (back && _); [apply in_rev, I|exact I]. }
  induction l2 as [|(id, c) l2 IH]; intros l1 E; cbn [hd_error option_map map fst snd].
  - eapply visits_end; [apply show_end|apply hand_end].
  - assert (L : lookup id items = Some c) by (apply LO; rewrite E; apply in_or_app; right; left; reflexivity).
    eapply visits_item; [apply show_item, L|apply hand_item, L|]. rewrite E.
    rewrite behind_split; [apply (IH (l1 ++ [(id, c)])); rewrite <- app_assoc; exact E|].
    rewrite E, map_app in NO. cbn [map fst] in NO. apply NoDup_remove_2 in NO. intros X. apply NO, in_or_app. left. exact X.
Qed.
End Hand.

Section Constant.
Variable p : list CodeSpec.item.
Variable iter : forall A, hmap A -> hmap A.
Variable r : root_obj.
Variable told : effect -> bool.
Variable n : text.
Variable c : list citem * def.
Variable value : spot -> val.
Hypothesis V : forall s w, conv (fun k => converted p (eval p iter r told k) !"CItemConst" n (PItem [] s)) w (Ok (value s, w)).
Lemma visit_const : forall l2 l1, fst c = l1 ++ l2 -> visits p iter r told (fun _ _ => True) false (CIter n c (Z.of_nat (length l1))) (map (fun x => value (x, snd c)) l2).
Proof.
  induction l2 as [|x l2 IH]; intros l1 E; cbn [map].
  - eapply (visits_end _ _ _ _ _ _ _ (CIter n c (Z.of_nat (length l1)))); [exact Logic.I|]. intros tr. exists O. intros k _. cbn [step_iter]. rewrite Nat2Z.id, E, app_nil_r, (proj2 (nth_error_None l1 (length l1)) (le_n _)). reflexivity.
  - eapply (visits_item _ _ _ _ _ _ _ _ (CIter n c (Z.of_nat (length l1) + 1))); [exact Logic.I| |].
    + intros tr. eapply conv_ext; [|eapply (conv_seq (fun k => converted p (eval p iter r told k) !"CItemConst" n (PItem [] (x, snd c)))
        (fun k v => ret (some v, CIter n c (Z.of_nat (length l1) + 1)))); [apply V|cbn [and_then]; apply conv_now; reflexivity]].
      intros k. cbn [step_iter]. rewrite Nat2Z.id, E, nth_error_app2, Nat.sub_diag by apply le_n. reflexivity.
    + replace (Z.of_nat (length l1) + 1) with (Z.of_nat (length (l1 ++ [x]))) by (rewrite app_length; cbn [length]; lia). apply IH. rewrite <- app_assoc. exact E.
Qed.
End Constant.

(* ------------------------------------------------------------------ *)
(** * Lists that are only read *)

Lemma same_items (l1 : list (Z * citem)) : forall l2, NoDup (map fst l1) -> map fst l1 = map fst l2 -> (forall id, lookup id l1 = lookup id l2) -> l1 = l2.
Proof.
  induction l1 as [|(k, x) l1 IH]; intros [|(k', y) l2] N E Q; cbn [map fst] in *; try discriminate E; [reflexivity|]. injection E as -> E. apply NoDup_cons_iff in N as (N1 & N).
  assert (x = y) as ->. { specialize (Q k'). cbn [lookup] in Q. rewrite Z.eqb_refl in Q. injection Q as ->. reflexivity. }
  f_equal. apply IH; [exact N|exact E|]. intros id. destruct (Z.eqb_spec id k') as [->|D].
  - assert (X : forall l : list (Z * citem), ~ In k' (map fst l) -> lookup k' l = None).
    { intros l X. destruct (lookup k' l) eqn:L; [|reflexivity]. destruct X. apply lookup_ids. rewrite L. reflexivity. }
    rewrite (X l1 N1), (X l2); [reflexivity|rewrite <- E; exact N1].
  - specialize (Q id). cbn [lookup] in Q. destruct (Z.eqb_spec id k'); [contradiction|exact Q].
Qed.
Lemma goes_place old root w stem l e : goes old root w false stem l e -> place w = Some (loc_at w).
Proof.
  remember false as c eqn:Ec. intros H. induction H; try discriminate Ec; cbn [place loc_at]; [reflexivity|]. rewrite (IHgoes eq_refl). reflexivity.
Qed.

Section Read.
Variable old : list name.
Variable iter : forall A, hmap A -> hmap A.
Variable r : root_obj.
Variable told : effect -> bool.
Local Notation root := (ro_default r).
Hypothesis T : tame root.
Variable parts : list (list CodeSpec.item).
Hypothesis D : Forall2 declares (generate old root) parts.
Local Notation p := (concat parts).

Lemma reaches_now q key l e was : reaches old root q key l e -> ask iter r q = Ok (Ids (Some was)) ->
  map fst (items_now r (loc_in q) key) = was /\ forall id, visit iter r (way_in q id) = Ok (mlist_item (items_now r (loc_in q) key) (Def l) id).
Proof.
  intros [t i l0 u I|w0 stem l0 e0 k i l' u Go I] A; cbn [ask loc_in way_in visit items_now] in *.
  - rewrite (root_get r T t _ I) in *. unfold root_mlist in *. rewrite (root_get r T t _ I) in *. destruct (hget t (ro_sabun r)) as [[z|o]|]; [discriminate A| |discriminate A].
    destruct o as [x|]; unfold get_list in *; cbn [need Base.bind fst option_map] in *; [|destruct u; cbn [Base.bind] in A; unfold ids_of in A; cbn in A; discriminate A].
    unfold ids_of in A. cbn [fst option_map] in A. injection A as <-. split; reflexivity.
  - pose proof (goes_spot old iter r T _ _ _ _ _ Go) as S. pose proof (goes_listed old r _ _ _ _ _ Go) as C. pose proof (goes_place _ _ _ _ _ _ Go) as P.
    assert (M : hget k (ld_members l0) = Some (i, DMil (Def l') u)) by exact (member_get r T stem l0 k _ (mlisted_listed _ _ _ C) I).
    unfold at_item in A. destruct (visit iter r w0) as [[s|]| |] eqn:V; cbn [Base.bind] in *; try discriminate A. rewrite S in A |- *. cbn [undef] in A |- *. rewrite M in A |- *.
    destruct (visit_placed iter r w0 s V (loc_at w0) P) as (Ne & At). unfold spot_mil in *. rewrite S in A |- *. cbn [undef] in A |- *. rewrite M in A |- *.
    assert (E : items_now r (loc_at w0) k = match hget k (ci_values (fst s)) with Some (VMil (Some x)) => fst x | _ => [] end).
    { unfold items_now. destruct (loc_at w0); [contradiction|]. rewrite At. reflexivity. }
    unfold items_now in E |- *. rewrite E. clear E. destruct (hget k (ci_values (fst s))) as [[z|z|[x|]]|]; unfold get_list in *; cbn [need Base.bind fst option_map] in *; unfold ids_of in A; cbn [fst option_map] in A;
      try (injection A as <-; split; reflexivity); destruct u; cbn [Base.bind fst option_map] in A; discriminate A.
Qed.
End Read.
