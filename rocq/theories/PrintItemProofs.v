(** Lists with items that are printed cannot be read. *)
From Coq Require Import String.
From Verif Require Import Base FloatModel StringCompactionModel StringCompactionProofs Json5Model Json5Spec DocModel DiffProofs ArchiveModel ArchiveWireProofs JsonModel JsonSpec JsonNameProofs JsonProofs PrintModel PrintSpec PrintProofs.

Lemma insert_keeps {A} (k : name) (v : A) k' v' m : In (k, v) m -> k <> k' -> In (k, v) (sm_insert k' v' m).
Proof.
  induction m as [|[y b] m IH]; intros I N; [destruct I|]. cbn [sm_insert]. destruct (bytes_lt k' y) eqn:B; [right; exact I|]. destruct (bytes_lt y k') eqn:C.
  - destruct I as [I|I]; [left; exact I|right; apply IH; assumption].
  - destruct I as [I|I]; [|right; exact I]. pose proof (eq_of_neither _ _ B C) as E. injection I as -> ->. congruence.
Qed.

(** the number of an item is in what is printed *)
Lemma item_id it id : exists m, citem_to_json it (Some id) = MMap m /\ In (txt "ID", id) m.
Proof.
  destruct it as [values refs]. cbn [citem_to_json]. unfold tmp_obj_to_json. eexists. split; [reflexivity|]. destruct refs as [|r refs]; [apply insert_new|]. apply insert_keeps; [apply insert_new|]. vm_compute. discriminate.
Qed.

(** a loop that ends well made each of its steps well *)
Lemma mfold_ok_in {A B} (f : A -> B -> res A) l : forall a a' b, mfold f l a = Ok a' -> In b l -> exists x y, f x b = Ok y.
Proof.
  induction l as [|c l IH]; intros a a' b E I; [destruct I|]. cbn [mfold] in E. destruct (f a c) as [y| |] eqn:F; cbn [bind] in E; try discriminate. destruct I as [<-|I]; [exists a, y; exact F|exact (IH _ _ _ E I)].
Qed.

Section Items.
Variable addr : list Z -> Z.
Variable iter : forall A, hmap A -> hmap A.

Lemma obj_step_in n m is_ref o e : obj_of addr iter n m is_ref = Ok o -> In e m -> exists k x y, n = S k /\ obj_step addr iter (arr_of addr iter k) (obj_of addr iter k) is_ref x e = Ok y.
Proof.
  destruct n as [|n]; [discriminate|]. rewrite obj_S. unfold json_obj_to_rust. intros E I. destruct (mfold _ m _) as [[r c]| |] eqn:F; cbn [bind] in E; try discriminate. destruct (mfold_ok_in _ _ _ _ _ F I) as (x & y & H). eauto 6.
Qed.

Lemma id_unread n m i o : In (txt "ID", JInt i) m -> obj_of addr iter n m false = Ok o -> False.
Proof.
  intros I E. destruct (obj_step_in _ _ _ _ _ E I) as (k & [r c] & y & _ & H). cbn [obj_step] in H. change (json_name (txt "ID")) with (Some (NSystem SID)) in H. cbv iota in H. destruct (is_some (to_id r)); discriminate.
Qed.

Lemma list_unread n d next l j key o : l <> [] -> means (snd (rust_value_to_json_value (VaMList d o (Some (l, next))) key)) j -> forall vt v, json_item_to_rust addr (arr_of addr iter n) vt j <> Ok v.
Proof.
  intros N M vt v. destruct l as [|[id it] l]; [congruence|]. cbn [rust_value_to_json_value map fst snd] in M. unfold rust_list_to_json in M. cbn [app] in M. apply means_tagged in M as (l1 & -> & F1).
  inversion F1 as [|? j1 ? l2 M1 F2]; subst. inversion F2 as [|? j2 ? l3 M2 F3]; subst. inversion F3 as [|? j3 ? l4 M3 F4]; subst. clear F1 F2 F3 F4.
  destruct (item_id it (MNumber (i64_to_f64 id))) as (im & Ei & Ii). rewrite Ei in M3. apply means_mp in M3 as (jm & -> & Fm).
  assert (X : exists i, In (txt "ID", JInt i) jm).
  { clear -Ii Fm. induction Fm as [|[a b] [c e] m m' [E H] F IH]; [destruct Ii|]. destruct Ii as [Ii|Ii]; [|destruct (IH Ii) as (i & I); exists i; right; exact I]. injection Ii as -> ->. cbn [fst snd] in *. subst c. destruct (means_whole _ _ H) as [i ->]. exists i. left. reflexivity. }
  destruct X as [i Ij]. apply means_tagged in M1 as (l5 & -> & _). apply means_arr in M2 as (l6 & -> & _). cbn [json_item_to_rust]. destruct n as [|n]; [discriminate|]. rewrite arr_S. unfold json_array_to_rust.
  change (get_array_type (JString (txt "MList") :: JArray (JString (txt "NextID") :: l5) :: JArray l6 :: JMap jm :: l4)) with GMList. cbn [tl].
  assert (L : forall t, json_list_to_rust iter (obj_of addr iter n) (JArray (JString (txt "NextID") :: l5) :: JArray l6 :: JMap jm :: l4) <> Ok t).
  { intros t. unfold json_list_to_rust. cbn [json_list_loop]. intros E.
    destruct (list_attribute iter (obj_of addr iter n) (JString (txt "NextID") :: l5)) as [a1| |]; cbn [bind] in E; try discriminate.
    match type of E with bind ?b _ = _ => destruct b as [r1| |]; cbn [bind] in E; try discriminate end.
    destruct (list_attribute iter (obj_of addr iter n) l6) as [a2| |]; cbn [bind] in E; try discriminate.
    match type of E with bind ?b _ = _ => destruct b as [r2| |]; cbn [bind] in E; try discriminate end.
    unfold get_list_items in E. cbn [mmap] in E. destruct (obj_of addr iter n jm false) as [ob| |] eqn:Eo; cbn [bind] in E; try discriminate. exact (id_unread _ _ _ _ Ij Eo). }
  destruct (json_list_to_rust iter (obj_of addr iter n) _) as [t| |] eqn:E; [destruct (L t eq_refl)| |]; destruct vt; discriminate.
Qed.

(** what is printed of a document *)
Definition root_kind (v : rvalue) : Prop := match v with VaParam _ _ | VaTable _ _ _ | VaCList _ _ | VaMList _ _ _ => True | _ => False end.
Lemma new_default_gives r res : new_default r = Ok res -> NoDup (map fst (ro_default r)) ->
  NoDup (map fst res) /\ Forall (fun e => In (fst e) (map fst (ro_default r)) /\ root_kind (snd e)) res /\
  forall key id d u m, In (key, (id, WMList d u)) (ro_default r) -> hget key (ro_sabun r) = Some (RMut m) -> In (key, VaMList d u m) res.
Proof.
  intros E N. unfold new_default in E.
  set (f := fun (result : hmap rvalue) (e : name * (Z * rootvalue)) => _) in E.
  assert (S : forall acc nm i w acc', f acc (nm, (i, w)) = Ok acc' -> (acc' = acc /\ forall d u m, w = WMList d u -> hget nm (ro_sabun r) = Some (RMut m) -> False) \/
     exists v, acc' = hset nm v acc /\ root_kind v /\ forall d u m, w = WMList d u -> hget nm (ro_sabun r) = Some (RMut m) -> v = VaMList d u m).
  { intros acc nm i w acc' H. unfold f in H. destruct w as [p vt|d t o|d l|d u].
    - apply Ok_inj in H. right. eexists. split; [symmetry; exact H|]. split; [|intros; discriminate]. destruct (hget nm (ro_sabun r)) as [[q|m]|]; exact Logic.I.
    - destruct (hget nm (ro_sabun r)) as [s|]; cbn [into_rust_value bind] in H; apply Ok_inj in H; [right; eexists; split; [symmetry; exact H|split; [exact Logic.I|intros; discriminate]]|left; split; [symmetry; exact H|intros; discriminate]].
    - destruct (hget nm (ro_sabun r)) as [s|]; cbn [into_rust_value bind] in H; apply Ok_inj in H; [right; eexists; split; [symmetry; exact H|split; [exact Logic.I|intros; discriminate]]|left; split; [symmetry; exact H|intros; discriminate]].
    - destruct (hget nm (ro_sabun r)) as [[q|m]|]; cbn [into_rust_value bind] in H; try discriminate; apply Ok_inj in H; [|left; split; [symmetry; exact H|intros; discriminate]]. right. eexists. split; [symmetry; exact H|]. split; [exact Logic.I|]. intros d0 u0 m0 Ew Em. congruence. }
  clearbody f.
  assert (G : forall l acc, mfold f l acc = Ok res -> NoDup (map fst acc ++ map fst l) -> Forall (fun e => root_kind (snd e)) acc ->
    NoDup (map fst res) /\ Forall (fun e => In (fst e) (map fst acc ++ map fst l) /\ root_kind (snd e)) res /\ (forall x, In x acc -> In x res) /\
    forall key id d u m, In (key, (id, WMList d u)) l -> hget key (ro_sabun r) = Some (RMut m) -> In (key, VaMList d u m) res).
  { induction l as [|[nm [i w]] l IH]; intros acc H Nd K; cbn [mfold] in H.
    - apply Ok_inj in H. subst res. cbn [map] in *. rewrite app_nil_r in *. split; [exact Nd|]. split; [|split; [auto|intros ? ? ? ? ? []]]. rewrite Forall_forall in *. intros e I. split; [apply in_map, I|apply K, I].
    - destruct (f acc (nm, (i, w))) as [acc'| |] eqn:F; cbn [bind] in H; try discriminate. cbn [map fst] in Nd.
      destruct (S _ _ _ _ _ F) as [[-> No]|(v & -> & Kv & Lv)].
      + destruct (IH _ H (NoDup_remove_1 _ _ _ Nd) K) as (A & B & C & D). split; [exact A|]. split; [|split; [exact C|]].
        * eapply Forall_impl; [|exact B]. intros e [I R]. split; [|exact R]. cbn [map fst]. apply in_app_or in I as [I|I]; apply in_or_app; [left|right; right]; exact I.
        * intros key id d u m [I|I] Hg; [|exact (D _ _ _ _ _ I Hg)]. apply pair_equal_spec in I as [<- I]. apply pair_equal_spec in I as [_ I]. destruct (No _ _ _ I Hg).
      + assert (Fr : ~ In nm (map fst acc)) by (intros I; apply NoDup_remove_2 in Nd; apply Nd, in_or_app; left; exact I). rewrite hset_fresh in H by exact Fr.
        destruct (IH _ H) as (A & B & C & D).
        { rewrite map_app. cbn [map fst]. rewrite <- app_assoc. exact Nd. }
        { apply Forall_app. split; [exact K|constructor; [exact Kv|constructor]]. }
        split; [exact A|]. split; [|split; [intros x I; apply C, in_or_app; left; exact I|]].
        * eapply Forall_impl; [|exact B]. intros e [I R]. split; [|exact R]. rewrite map_app in I. cbn [map fst] in *. rewrite <- app_assoc in I. exact I.
        * intros key id d u m [I|I] Hg; [|exact (D _ _ _ _ _ I Hg)]. apply pair_equal_spec in I as [<- I]. apply pair_equal_spec in I as [_ I]. rewrite <- (Lv _ _ _ I Hg). apply C, in_or_app. right. left. reflexivity. }
  destruct (G _ _ E N ltac:(constructor)) as (A & B & _ & D). split; [exact A|]. split; [exact B|exact D].
Qed.

Lemma items_unread r v j key id d u l next : root_to_json r = Ok v -> means v j -> proper_names (map fst (ro_default r)) ->
  In (key, (id, WMList d u)) (ro_default r) -> hget key (ro_sabun r) = Some (RMut (Some (l, next))) -> l <> [] ->
  forall r', json_root_to_rust addr iter j <> Ok r'.
Proof.
  intros E M [N P] I Hg Nl r' R. unfold root_to_json in E. destruct (new_default r) as [res| |] eqn:Er; cbn [bind] in E; try discriminate. apply Ok_inj in E. subst v.
  destruct (new_default_gives r res Er N) as (Nr & Kr & G). pose proof (G _ _ _ _ _ I Hg) as Il. apply means_mp in M as (m & -> & F).
  assert (Pr : Forall (fun e => plain_name (fst e)) res). { eapply Forall_impl; [|exact Kr]. intros e [Ie _]. rewrite Forall_forall in P. apply P, Ie. }
  assert (Eq : map (fun e : name * rvalue => rust_value_to_json_value (snd e) (fst e)) res = map (root_part (ro_old r)) (map inl res)).
  { rewrite map_map. apply map_ext_in. intros [k v] Ik. rewrite Forall_forall in Kr. destruct (Kr _ Ik) as [_ Kv]. cbn [fst snd root_part] in *. destruct v; cbn [root_kind] in Kv; try (destruct Kv; fail); cbn [vt_of_value rust_value_to_json_value snd]; try reflexivity; rewrite ?name_normal; try reflexivity. destruct (match o with Some _ => _ | None => _ end). cbn [snd]. reflexivity. }
  rewrite Eq in F. pose proof (root_parts_keys (ro_old r) res Nr Pr) as K. cbn [map] in K. cbn [root_part fst] in K. inversion K as [|? ? K1 K2]; subst.
  assert (Ip : In (key, snd (rust_value_to_json_value (VaMList d u (Some (l, next))) key)) (sm_insert (txt "Old") (string_set_to_json_short (ro_old r)) (bmap (map (root_part (ro_old r)) (map inl res))))).
  { assert (J : In (key, snd (rust_value_to_json_value (VaMList d u (Some (l, next))) key)) (map (root_part (ro_old r)) (map inl res))).
    { apply in_map_iff. exists (inl (key, VaMList d u (Some (l, next)))). split; [|apply in_map, Il]. cbn [root_part vt_of_value fst snd]. rewrite name_normal. reflexivity. }
    apply insert_keeps; [eapply Permutation_in; [symmetry; apply bmap_perm, K2|exact J]|]. intros ->. apply K1, in_map_iff. eexists. split; [|exact J]. reflexivity. }
  set (printed := sm_insert _ _ _) in *. clearbody printed.
  assert (X : exists jl, In (key, jl) m /\ means (snd (rust_value_to_json_value (VaMList d u (Some (l, next))) key)) jl).
  { clear -Ip F. induction F as [|[a b] [c e] m1 m2 [E H] F IH]; [destruct Ip|]. destruct Ip as [Ip|Ip]; [|destruct (IH Ip) as (jl & I & J); exists jl; split; [right; exact I|exact J]]. apply pair_equal_spec in Ip as [-> ->]. cbn [fst snd] in *. subst c. exists e. split; [left; reflexivity|exact H]. }
  destruct X as (jl & Ij & Mj). unfold json_root_to_rust in R. destruct (obj_of addr iter (jdepth (JMap m)) m false) as [o| |] eqn:Eo; cbn [bind] in R; try discriminate.
  destruct (obj_step_in _ _ _ _ _ Eo Ij) as (k & [x c] & y & _ & H). cbn [obj_step] in H.
  assert (Pk : plain_name key). { rewrite Forall_forall in P. apply P, in_map_iff. eexists. split; [|exact I]. reflexivity. }
  pose proof (json_name_written key Normal Pk) as Jk. rewrite name_normal in Jk. rewrite Jk in H. destruct (json_item_to_rust addr (arr_of addr iter k) Normal jl) as [v| |] eqn:Ev; cbn [bind] in H; try discriminate.
  exact (list_unread k d next l jl key u Nl Mj Normal v Ev).
Qed.
End Items.
