(** Proofs for C54: what the generated methods do. *)
From Coq Require Import String.
From Verif Require Import Base StringCompactionModel StringCompactionProofs DocModel DiffSpec DiffProofs JsonModel JsonSpec ValidModel ValidSpec IntfModel IntfSpec IntfProofs
  GenModel GenSpec GenNameProofs GenProofs GenWellProofs.

(* ------------------------------------------------------------------ *)
(** * Calls *)

Lemma param_call at_ t vt key o m : In m (param_methods at_ t vt key o) ->
  m_call m = CRead at_ t vt key \/ m_call m = CDefault at_ t vt key \/ (m_call m = CWrite at_ t vt key /\ by_reference t = true /\ at_ <> AtCItem) \/ (m_call m = CSet at_ t vt key /\ at_ <> AtCItem).
Proof.
  unfold param_methods. intros H. destruct at_, (by_reference t) eqn:E; cbn [In] in H;
    repeat (destruct H as [<-|H]; [cbn [m_call]; first [left; reflexivity|right; left; reflexivity|right; right; left; split; [reflexivity|split; [reflexivity|discriminate]]|right; right; right; split; [reflexivity|discriminate]]|]); destruct H.
Qed.

Lemma refs_get_call at_ stem (l : ldef def) m : In m (refs_get at_ stem l) -> item_call at_ l (m_call m).
Proof.
  unfold refs_get. destruct (ld_enum l) eqn:E.
  - intros [<-|[<-|[]]]; cbn [m_call item_call]; auto.
  - intros H. apply in_flat_map in H as ((key & i & q & vt) & He & H). destruct H as [<-|[<-|[]]]; cbn [m_call item_call]; (split; [reflexivity|]); (split; [exact E|]); exists i, q; exact He.
Qed.
Lemma refs_set_call stem (l : ldef def) m : In m (refs_set stem l) -> item_call AtMItem l (m_call m).
Proof.
  unfold refs_set. destruct (ld_enum l) eqn:E.
  - intros [<-|[]]; cbn [m_call item_call]; auto.
  - intros H. apply in_flat_map in H as ((key & i & q & vt) & He & H). destruct H as [<-|[]]. cbn [m_call item_call]. split; [reflexivity|]. split; [exact E|]. exists i, q. exact He.
Qed.

Lemma generated_calls old root nm ms m : generated old root (DStruct nm ms) -> In m ms ->
  (nm = txt "RootIntf" /\ root_call root (m_call m)) \/
  (exists key id d rows o, In (key, (id, WTable d rows o)) root /\ nm = table_type key /\ table_call rows (m_call m)) \/
  (exists stem l, clisted root stem l /\ nm = citem_type stem /\ item_call AtCItem l (m_call m)) \/
  (exists stem l, mlisted root stem l /\ nm = mitem_type stem /\ item_call AtMItem l (m_call m)).
Proof.
  intros H Hm. inversion H as [E|key id d rows o I E|key id d rows o I E|stem l C E|stem l C En E|stem l C E|stem l C En E|stem l C En E]; subst.
  - left. split; [reflexivity|]. unfold root_methods in Hm. apply in_app_iff in Hm as [Hm|Hm].
    + unfold root_fixed in Hm. destruct Hm as [<-|[<-|[<-|[<-|[]]]]]; exact Logic.I.
    + apply in_flat_map in Hm as ((key & id & v) & He & Hm). apply strip_in in He as (w & He & ->). destruct w as [p vt|d rows o|d items|d u]; cbn [strip] in Hm.
      * apply param_call in Hm as [->|[->|[(-> & B & _)|(-> & _)]]]; cbn [root_call]; try (split; [exact B|]); exists id, p; auto.
      * destruct Hm as [<-|[]]. cbn [m_call table_method root_call]. eauto.
      * destruct Hm as [<-|[]]. cbn [m_call const_method root_call]. eauto.
      * destruct Hm as [<-|[<-|[]]]; cbn [m_call root_call]; eauto.
  - right; left. exists key, id, d, rows, o. split; [exact I|]. split; [reflexivity|]. destruct Hm as [<-|Hm]; [exact Logic.I|]. apply in_app_iff in Hm as [Hm|Hm].
    + apply in_flat_map in Hm as (k & Hk & Hm). assert (In (fst k) (map fst rows)) by (rewrite <- (row_keys_fst rows o); apply in_map, Hk).
      destruct Hm as [<-|[<-|[]]]; cbn [m_call table_call]; assumption.
    + unfold by_id_methods in Hm. destruct (row_keys rows o); [destruct Hm|]. destruct Hm as [<-|[<-|[]]]; exact Logic.I.
  - right; right; left. exists stem, l. split; [exact C|]. split; [reflexivity|]. unfold citem_methods in Hm. apply in_app_iff in Hm as [Hm|Hm]; [|eapply refs_get_call; exact Hm].
    apply in_flat_map in Hm as ((key & id & v) & He & Hm). destruct v as [p vt|d|d u].
    + apply param_call in Hm as [->|[->|[(_ & _ & N)|(_ & N)]]]; [| |contradiction|contradiction]; cbn [item_call]; (split; [reflexivity|]); eauto.
    + destruct Hm as [<-|[]]. cbn [m_call const_method item_call]. eauto.
    + destruct Hm.
  - right; right; right. exists stem, l. split; [exact C|]. split; [reflexivity|]. unfold mitem_methods in Hm.
    apply in_app_iff in Hm as [Hm|Hm]; [|apply in_app_iff in Hm as [Hm|Hm]; [eapply refs_get_call; exact Hm|eapply refs_set_call; exact Hm]].
    apply in_flat_map in Hm as ((key & id & v) & He & Hm). destruct v as [p vt|d|d u].
    + apply param_call in Hm as [->|[->|[(-> & B & _)|(-> & _)]]]; cbn [item_call]; eauto 10.
    + destruct Hm.
    + destruct Hm as [<-|[<-|[]]]; cbn [m_call item_call]; eauto 10.
Qed.

(* ------------------------------------------------------------------ *)
(** * Methods by name *)

Lemma find_unique ms m : NoDup (map m_name ms) -> In m ms -> find (fun x => eqb_bytes (m_name x) (m_name m)) ms = Some m.
Proof.
  induction ms as [|x ms IH]; cbn [map find]; intros N H; [destruct H|]. inversion N as [|? ? Nx N']; subst. destruct H as [->|H]; [rewrite eqb_bytes_refl; reflexivity|].
  rewrite eqb_bytes_neq; [apply IH; assumption|]. intros E. apply Nx. rewrite E. apply in_map, H.
Qed.

Section Tame.
Variable old : list name.
Variable root : hmap (Z * rootvalue).
Hypothesis T : tame root.

Lemma has_method_in nm ms f m : generated old root (DStruct nm ms) -> In m ms -> m_name m = f -> has_method (generate old root) nm f m.
Proof.
  intros G H <-. exists (DStruct nm ms). split; [apply generated_generate, G|]. split; [reflexivity|]. cbn [method]. apply find_unique; [|exact H].
  destruct (struct_sound old root T nm ms G) as (l & S). apply (sound_methods ms l S).
Qed.

Lemma get_in_params at_ t vt key o : ordinary key -> In (Meth (with_old key o) [] (CRead at_ t vt key) [] []) (param_methods at_ t vt key o).
Proof. intros O. unfold param_methods. rewrite (ordinary_snake key O). destruct at_, (by_reference t); cbn [In]; tauto. Qed.
Lemma def_in_params at_ t vt key o : ordinary key -> In (Meth (with_old key o ++ txt "_def_val") [] (CDefault at_ t vt key) [] []) (param_methods at_ t vt key o).
Proof. intros O. unfold param_methods. rewrite (ordinary_snake key O). destruct at_, (by_reference t); cbn [In]; tauto. Qed.
Lemma set_in_params at_ t vt key o : ordinary key -> at_ <> AtCItem -> In (Meth (txt "set_" ++ with_old key o) [key] (CSet at_ t vt key) [] []) (param_methods at_ t vt key o).
Proof. intros O N. unfold param_methods. rewrite (ordinary_snake key O). destruct at_, (by_reference t); cbn [In]; try tauto; congruence. Qed.
Lemma mut_in_params at_ t vt key o : ordinary key -> at_ <> AtCItem -> by_reference t = true -> In (Meth (with_old key o ++ txt "_mut") [] (CWrite at_ t vt key) [] []) (param_methods at_ t vt key o).
Proof. intros O N B. unfold param_methods. rewrite (ordinary_snake key O), B. destruct at_; cbn [In]; try tauto; congruence. Qed.

Lemma in_strip key id v : In (key, (id, v)) root -> In (key, (id, strip v)) (strip_root root).
Proof. intros H. unfold strip_root. apply in_map_iff. exists (key, (id, v)). auto. Qed.

Lemma in_root_params key id p vt m : In (key, (id, WParam p vt)) root -> In m (param_methods AtRoot (type_of p) vt key (contains old key)) -> In m (root_methods old (strip_root root)).
Proof. intros H Hm. unfold root_methods. apply in_app_iff. right. apply in_flat_map. exists (key, (id, RVParam p vt)). split; [exact (in_strip _ _ _ H)|exact Hm]. Qed.
Lemma in_mitem_params stem (l : ldef def) key id p vt m : In (key, (id, DParam p vt)) (ld_members l) ->
  In m (param_methods AtMItem (type_of p) vt key (contains (ld_old l) key)) -> In m (mitem_methods stem l).
Proof. intros H Hm. unfold mitem_methods. apply in_app_iff. left. apply in_flat_map. eexists. split; [exact H|exact Hm]. Qed.
Lemma in_citem_params stem (l : ldef def) key id p vt m : In (key, (id, DParam p vt)) (ld_members l) ->
  In m (param_methods AtCItem (type_of p) vt key (contains (ld_old l) key)) -> In m (citem_methods stem l).
Proof. intros H Hm. unfold citem_methods. apply in_app_iff. left. apply in_flat_map. eexists. split; [exact H|exact Hm]. Qed.

Lemma unwrapped_allowed vt p : allows_param vt p -> unwrapped vt (Some (contents p)) = Ok (contents p).
Proof. unfold allows_param, allows. destruct p as [[v| |]|[v| |]|[v| |]|[v| |]|[v| |]|[v| |]|[v| |]], vt; cbn; intuition congruence. Qed.
Lemma acceptable_allowed vt p : allows_param vt p -> acceptable vt (param_qv_type p) = true.
Proof. intros H. assert (V : verify_set_sabun p vt p = true) by (apply verify_iff; auto). unfold verify_set_sabun in V. apply andb_prop in V. apply V. Qed.

(** the root *)
Lemma root_accessors L (s : hmap (rootsab L)) key id p vt q : In (key, (id, WParam p vt)) root -> root_kinds s (strip_root root) -> type_of q = type_of p -> allows_param vt q ->
  let nm := with_old key (contains old key) in
  exists get set s', has_method (generate old root) (txt "RootIntf") nm get /\ has_method (generate old root) (txt "RootIntf") (txt "set_" ++ nm) set /\
    run_root_set set s (strip_root root) q = Ok s' /\ run_root_read get s' (strip_root root) = Ok (contents q) /\ only_member key s s'.
Proof.
  intros H K Et A nm. pose proof (t_names root T _ _ H) as O.
  exists (Meth nm [] (CRead AtRoot (type_of p) vt key) [] []), (Meth (txt "set_" ++ nm) [key] (CSet AtRoot (type_of p) vt key) [] []).
  destruct (set_root s (strip_root root) key q K) as (s' & b & E & D & _ & Y). exists s'.
  assert (B : b = true).
  { apply D. exists id, p, vt. split; [|auto]. apply in_hget; [rewrite strip_keys; exact (t_keys root T)|]. exact (in_strip _ _ _ H). }
  destruct (Y B) as (R & _ & M). split; [|split; [|split; [|split]]].
  - eapply has_method_in; [apply generated_root| |reflexivity]. eapply in_root_params; [exact H|]. apply get_in_params, O.
  - eapply has_method_in; [apply generated_root| |reflexivity]. eapply in_root_params; [exact H|]. apply set_in_params; [exact O|discriminate].
  - cbn [run_root_set m_call]. rewrite E. replace (eqb_type (type_of q) (type_of p)) with true by (symmetry; apply eqb_type_iff, Et). rewrite (acceptable_allowed vt q A). reflexivity.
  - cbn [run_root_read m_call]. unfold read_root. rewrite R. unfold get_as. replace (eqb_type (type_of q) (type_of p)) with true by (symmetry; apply eqb_type_iff, Et). apply unwrapped_allowed, A.
  - exact M.
Qed.

(** items *)
Lemma item_accessors L (it : item L) stem l key id p vt q : mlisted root stem l -> In (key, (id, DParam p vt)) (ld_members l) -> item_kinds it l ->
  type_of q = type_of p -> allows_param vt q ->
  let nm := with_old key (contains (ld_old l) key) in
  exists get set it', has_method (generate old root) (mitem_type stem) nm get /\ has_method (generate old root) (mitem_type stem) (txt "set_" ++ nm) set /\
    run_item_set set it l q = Ok it' /\ run_item_read get it' l = Ok (contents q) /\ only_value key it it'.
Proof.
  intros C H K Et A nm. destruct (t_members root T stem l (mlisted_listed _ _ _ C)) as (N & O'). pose proof (O' _ _ H) as O.
  exists (Meth nm [] (CRead AtMItem (type_of p) vt key) [] []), (Meth (txt "set_" ++ nm) [key] (CSet AtMItem (type_of p) vt key) [] []).
  destruct (set_item it l key q K) as (it' & b & E & D & _ & Y). exists it'.
  assert (B : b = true).
  { apply D. exists id, p, vt. split; [|auto]. apply in_hget; assumption. }
  destruct (Y B) as (R & _ & M). split; [|split; [|split; [|split]]].
  - eapply has_method_in; [apply generated_mitem, C| |reflexivity]. eapply in_mitem_params; [exact H|]. apply get_in_params, O.
  - eapply has_method_in; [apply generated_mitem, C| |reflexivity]. eapply in_mitem_params; [exact H|]. apply set_in_params; [exact O|discriminate].
  - cbn [run_item_set m_call]. rewrite E. replace (eqb_type (type_of q) (type_of p)) with true by (symmetry; apply eqb_type_iff, Et). rewrite (acceptable_allowed vt q A). reflexivity.
  - cbn [run_item_read m_call]. unfold read_item. rewrite R. unfold get_as. replace (eqb_type (type_of q) (type_of p)) with true by (symmetry; apply eqb_type_iff, Et). apply unwrapped_allowed, A.
  - exact M.
Qed.

(** every member can be read *)
Lemma root_readers key id v : In (key, (id, v)) root -> exists m, has_method (generate old root) (txt "RootIntf") (with_old key (contains old key)) m /\
  m_call m = match v with WParam p vt => CRead AtRoot (type_of p) vt key | WTable _ _ _ => CTable key | WCList _ _ => CConstList AtRoot key | WMList _ u => CList AtRoot u key end.
Proof.
  intros H. pose proof (t_names root T _ _ H) as O. set (nm := with_old key (contains old key)).
  assert (G : exists m, In m (root_methods old (strip_root root)) /\ m_name m = nm /\
    m_call m = match v with WParam p vt => CRead AtRoot (type_of p) vt key | WTable _ _ _ => CTable key | WCList _ _ => CConstList AtRoot key | WMList _ u => CList AtRoot u key end).
  { destruct v as [p vt|d rows o|d items|d u].
    - eexists. split; [eapply in_root_params; [exact H|apply get_in_params, O]|]. split; reflexivity.
    - exists (table_method key (contains old key)). split; [|split; [unfold table_method; rewrite (ordinary_snake key O); reflexivity|reflexivity]].
      unfold root_methods. apply in_app_iff. right. apply in_flat_map. eexists. split; [exact (in_strip _ _ _ H)|left; reflexivity].
    - exists (const_method AtRoot key (contains old key)). split; [|split; [unfold const_method; rewrite (ordinary_snake key O); reflexivity|reflexivity]].
      unfold root_methods. apply in_app_iff. right. apply in_flat_map. eexists. split; [exact (in_strip _ _ _ H)|left; reflexivity].
    - exists (Meth nm [] (CList AtRoot u key) [mitem_type key] []). split; [|split; reflexivity].
      unfold root_methods. apply in_app_iff. right. apply in_flat_map. eexists. split; [exact (in_strip _ _ _ H)|]. cbn [strip]. unfold list_methods. rewrite (ordinary_snake key O). left; reflexivity. }
  destruct G as (m & Hm & E & C). exists m. split; [|exact C]. exact (has_method_in _ _ _ m (generated_root old root) Hm E).
Qed.

Lemma mitem_readers stem l key id v : mlisted root stem l -> In (key, (id, v)) (ld_members l) -> (forall d, v <> DCil d) ->
  exists m, has_method (generate old root) (mitem_type stem) (with_old key (contains (ld_old l) key)) m /\
  m_call m = match v with DParam p vt => CRead AtMItem (type_of p) vt key | DMil _ u => CList AtMItem u key | DCil _ => COther end.
Proof.
  intros C H Nc. destruct (t_members root T stem l (mlisted_listed _ _ _ C)) as (N & O'). pose proof (O' _ _ H) as O. set (nm := with_old key (contains (ld_old l) key)).
  destruct v as [p vt|d|d u]; [| destruct (Nc d eq_refl)|].
  - exists (Meth nm [] (CRead AtMItem (type_of p) vt key) [] []). split; [|reflexivity]. eapply has_method_in; [apply generated_mitem, C| |reflexivity].
    eapply in_mitem_params; [exact H|apply get_in_params, O].
  - exists (Meth nm [] (CList AtMItem u key) [mitem_type key] []). split; [|reflexivity]. eapply has_method_in; [apply generated_mitem, C| |reflexivity].
    unfold mitem_methods. apply in_app_iff. left. apply in_flat_map. eexists. split; [exact H|]. cbn beta iota. unfold list_methods. rewrite (ordinary_snake key O). left; reflexivity.
Qed.

Lemma citem_readers stem l key id v : clisted root stem l -> In (key, (id, v)) (ld_members l) -> (forall d u, v <> DMil d u) ->
  exists m, has_method (generate old root) (citem_type stem) (with_old key (contains (ld_old l) key)) m /\
  m_call m = match v with DParam p vt => CRead AtCItem (type_of p) vt key | DCil _ => CConstList AtCItem key | DMil _ _ => COther end.
Proof.
  intros C H Nc. destruct (t_members root T stem l (clisted_listed _ _ _ C)) as (N & O'). pose proof (O' _ _ H) as O. set (nm := with_old key (contains (ld_old l) key)).
  destruct v as [p vt|d|d u]; [| |destruct (Nc d u eq_refl)].
  - exists (Meth nm [] (CRead AtCItem (type_of p) vt key) [] []). split; [|reflexivity]. eapply has_method_in; [apply generated_citem, C| |reflexivity].
    eapply in_citem_params; [exact H|apply get_in_params, O].
  - exists (Meth nm [] (CConstList AtCItem key) [citem_type key] []). split; [|reflexivity]. eapply has_method_in; [apply generated_citem, C| |reflexivity].
    unfold citem_methods. apply in_app_iff. left. apply in_flat_map. eexists. split; [exact H|]. cbn beta iota. unfold const_method. rewrite (ordinary_snake key O). left; reflexivity.
Qed.

(** references *)
Lemma ref_readers at_ stem l key id q vt : (at_ = AtCItem /\ clisted root stem l) \/ (at_ = AtMItem /\ mlisted root stem l) -> ld_enum l = false -> In (key, (id, (q, vt))) (ld_refs l) ->
  exists m m', let nm := with_old key (contains (ld_ref_old l) key) in
    let ty := match at_ with AtCItem => citem_type stem | _ => mitem_type stem end in
    has_method (generate old root) ty (txt "ref_" ++ nm) m /\ m_call m = CRef at_ vt key /\
    has_method (generate old root) ty (txt "ref_id_" ++ nm) m' /\ m_call m' = CRefId at_ vt key.
Proof.
  intros C En H. assert (L : listed root stem l) by (destruct C as [(_ & C)|(_ & C)]; [apply clisted_listed|apply mlisted_listed]; exact C).
  pose proof (ref_ordinary root T stem l key _ L H) as O. set (nm := with_old key (contains (ld_ref_old l) key)).
  assert (I : forall m, In m (ref_get at_ key vt (contains (ld_ref_old l) key)) -> In m (refs_get at_ stem l)).
  { intros m Hm. unfold refs_get. rewrite En. apply in_flat_map. eexists. split; [exact H|exact Hm]. }
  assert (I1 : In (Meth (txt "ref_" ++ nm) [] (CRef at_ vt key) [citem_type key] [citem_type key]) (refs_get at_ stem l)).
  { apply I. unfold ref_get. rewrite (ordinary_snake key O). left; reflexivity. }
  assert (I2 : In (Meth (txt "ref_id_" ++ nm) [] (CRefId at_ vt key) [] []) (refs_get at_ stem l)).
  { apply I. unfold ref_get. rewrite (ordinary_snake key O). right; left; reflexivity. }
  exists (Meth (txt "ref_" ++ nm) [] (CRef at_ vt key) [citem_type key] [citem_type key]), (Meth (txt "ref_id_" ++ nm) [] (CRefId at_ vt key) [] []).
  cbn zeta. destruct C as [(-> & C)|(-> & C)].
  - split; [|split; [reflexivity|split; [|reflexivity]]].
    + eapply has_method_in; [apply generated_citem, C| |reflexivity]. apply in_app_iff. right. exact I1.
    + eapply has_method_in; [apply generated_citem, C| |reflexivity]. apply in_app_iff. right. exact I2.
  - split; [|split; [reflexivity|split; [|reflexivity]]].
    + eapply has_method_in; [apply generated_mitem, C| |reflexivity]. apply in_app_iff. right. apply in_app_iff. left. exact I1.
    + eapply has_method_in; [apply generated_mitem, C| |reflexivity]. apply in_app_iff. right. apply in_app_iff. left. exact I2.
Qed.

(* ------------------------------------------------------------------ *)
(** * Ids *)

Lemma arm_in {A} k (a : A) arms : NoDup (map fst arms) -> In (k, a) arms -> arm k arms = Some a.
Proof.
  induction arms as [|(x & b) arms IH]; cbn [map arm fst]; intros N H; [destruct H|]. inversion N as [|? ? Nx N']; subst. destruct H as [E|H].
  - apply pair_equal_spec in E as [-> ->]. rewrite eqb_bytes_refl. reflexivity.
  - rewrite eqb_bytes_neq; [apply IH; assumption|]. intros ->. apply Nx. apply in_map_iff. exists (k, a). auto.
Qed.
Lemma arm_none {A} k (arms : list (list Z * A)) : ~ In k (map fst arms) -> arm k arms = None.
Proof.
  induction arms as [|(x & b) arms IH]; cbn [map arm fst In]; intros N; [reflexivity|]. rewrite eqb_bytes_neq by tauto. apply IH. tauto.
Qed.

Lemma num_arm_at {A B} (f : A -> B) (l : list A) : forall i k, 0 <= k -> num_arm (i + k) (map (fun e => (fst e, f (snd e))) (enumerate_from i l)) = option_map f (nth_error l (Z.to_nat k)).
Proof.
  induction l as [|x l IH]; intros i k Hk; cbn [enumerate_from map num_arm fst snd].
  - destruct (Z.to_nat k); reflexivity.
  - destruct (Z.eqb_spec i (i + k)).
    + replace k with 0 by lia. reflexivity.
    + replace (Z.to_nat k) with (S (Z.to_nat (k - 1))) by lia. cbn [nth_error]. rewrite <- (IH (i + 1) (k - 1)) by lia. f_equal. lia.
Qed.
Lemma num_arm_below {A B} (f : A -> B) (l : list A) : forall i k, k < i -> num_arm k (map (fun e => (fst e, f (snd e))) (enumerate_from i l)) = None.
Proof.
  induction l as [|x l IH]; intros i k Hk; cbn [enumerate_from map num_arm fst snd]; [reflexivity|]. destruct (Z.eqb_spec i k); [lia|]. apply IH. lia.
Qed.

Lemma enumerate_in {A} (l : list A) x : In x l -> forall i, exists k, 0 <= k < zlen l /\ nth_error l (Z.to_nat k) = Some x /\ In (i + k, x) (enumerate_from i l).
Proof.
  induction l as [|y l IH]; intros H i; [destruct H|]. rewrite zlen_cons. pose proof (zlen_nonneg l). destruct H as [->|H].
  - exists 0. split; [lia|]. split; [reflexivity|]. left. f_equal. lia.
  - destruct (IH H (i + 1)) as (k & B & E & I). exists (k + 1). split; [lia|]. split; [replace (Z.to_nat (k + 1)) with (S (Z.to_nat k)) by lia; exact E|].
    right. replace (i + (k + 1)) with (i + 1 + k) by lia. exact I.
Qed.

Lemma run_ids key id d rows o : In (key, (id, WTable d rows o)) root ->
  let ids := ids_decl key (row_keys rows o) in
  In ids (generate old root) /\ decl_name ids = ids_type key /\
  (forall row it, In (row, it) rows -> exists v i, v = variant_name row (contains o row) /\ run_from_str ids row = Some v /\
     run_to_num ids v = Ok i /\ 0 <= i < zlen rows /\ run_from_num ids i = Ok v /\ run_to_str ids v = Ok row) /\
  (forall row, ~ In row (map fst rows) -> run_from_str ids row = None) /\
  (forall i, 0 <= i < zlen rows -> exists row v, In row (map fst rows) /\ run_from_num ids i = Ok v /\ run_from_str ids row = Some v /\ run_to_num ids v = Ok i) /\
  (forall i, ~ 0 <= i < zlen rows -> run_from_num ids i = Panic).
Proof.
  intros H ids. destruct (ids_fine root T _ _ _ _ _ H) as (_ & N & _). pose proof (row_keys_nodup root T _ _ _ _ _ H) as RN.
  assert (Ln : zlen (row_keys rows o) = zlen rows) by (unfold zlen, row_keys; rewrite map_length; reflexivity).
  assert (Nt : NoDup (map fst (map (fun e : Z * (name * bool) => (variant_of (snd e), fst e)) (enumerate (row_keys rows o))))).
  { rewrite map_fst_map, <- (map_map snd variant_of). unfold enumerate. rewrite enumerate_snd. exact N. }
  assert (Row : forall k, In k (row_keys rows o) -> exists i, run_from_str ids (fst k) = Some (variant_of k) /\ run_to_num ids (variant_of k) = Ok i /\ 0 <= i < zlen rows /\
                run_from_num ids i = Ok (variant_of k) /\ run_to_str ids (variant_of k) = Ok (fst k) /\ nth_error (row_keys rows o) (Z.to_nat i) = Some k).
  { intros k Hk. destruct (enumerate_in (row_keys rows o) k Hk 0) as (i & B & E & I). rewrite Z.add_0_l in I. exists i.
    assert (Tn : run_to_num ids (variant_of k) = Ok i).
    { unfold ids, ids_decl, run_to_num. rewrite (arm_in _ i); [reflexivity|exact Nt|]. apply in_map_iff. exists (i, k). auto. }
    split; [|split; [exact Tn|split; [lia|split; [|split; [|exact E]]]]].
    - unfold ids, ids_decl, run_from_str. apply arm_in; [rewrite map_fst_map; exact RN|]. apply in_map_iff. exists k. auto.
    - unfold ids, ids_decl, run_from_num, enumerate. rewrite <- (Z.add_0_l i), num_arm_at by lia. rewrite E. reflexivity.
    - unfold run_to_str. rewrite Tn. cbn [bind]. unfold ids, ids_decl, zget. destruct (Z.ltb_spec i 0); [lia|]. rewrite nth_error_map, E. reflexivity. }
  split; [apply generated_generate; eapply generated_ids; exact H|]. split; [reflexivity|]. split; [|split; [|split]].
  - intros row it Hr. assert (Hk : In (row, contains o row) (row_keys rows o)) by (unfold row_keys; apply in_map_iff; exists (row, it); auto).
    destruct (Row _ Hk) as (i & A & B & C & D & E & _). exists (variant_of (row, contains o row)), i. split; [reflexivity|]. cbn [fst] in *. auto.
  - intros row Nr. unfold ids, ids_decl, run_from_str. apply arm_none. rewrite map_fst_map, row_keys_fst. exact Nr.
  - intros i Hi. destruct (nth_error (row_keys rows o) (Z.to_nat i)) as [k|] eqn:E.
    + pose proof (nth_error_In _ _ E) as Hk. destruct (Row k Hk) as (j & A & B & C & D & F & G). exists (fst k), (variant_of k).
      assert (j = i).
      { assert (ND : NoDup (row_keys rows o)) by (eapply NoDup_map_inv; exact RN). assert (Z.to_nat j = Z.to_nat i); [|lia].
        eapply NoDup_nth_error; [exact ND| |congruence]. apply nth_error_Some. congruence. }
      subst j. split; [rewrite <- (row_keys_fst rows o); apply in_map, Hk|]. auto.
    + apply nth_error_None in E. unfold zlen in *. lia.
  - intros i Hi. unfold ids, ids_decl, run_from_num, enumerate. destruct (Z.ltb_spec i 0).
    + rewrite num_arm_below by lia. reflexivity.
    + rewrite <- (Z.add_0_l i), num_arm_at by lia. replace (nth_error (row_keys rows o) (Z.to_nat i)) with (@None (name * bool)); [reflexivity|].
      symmetry. apply nth_error_None. unfold zlen in *. lia.
Qed.

Lemma by_id_row key id d rows o row it : In (key, (id, WTable d rows o)) root -> In (row, it) rows ->
  exists t, In t (generate old root) /\ decl_name t = table_type key /\ run_by_id t (variant_name row (contains o row)) = Some row.
Proof.
  intros H Hr. set (ms := table_methods key (row_keys rows o)). exists (DStruct (table_type key) ms).
  assert (G : generated old root (DStruct (table_type key) ms)) by (eapply generated_table; exact H).
  split; [apply generated_generate, G|]. split; [reflexivity|].
  destruct (struct_sound old root T _ _ G) as (l & S). destruct (sound_methods ms l S) as (N & _).
  assert (Hk : In (row, contains o row) (row_keys rows o)) by (unfold row_keys; apply in_map_iff; exists (row, it); auto).
  set (arms := map (fun k => (variant_name (fst k) (snd k), key_name (fst k) (snd k) ++ txt "_us")) (row_keys rows o)).
  assert (M1 : In (Meth (txt "get_by_id_us") [txt "id"] (CById arms) [ids_type key; citem_type key] []) ms).
  { right. apply in_app_iff. right. unfold by_id_methods, arms. destruct (row_keys rows o); [destruct Hk|left; reflexivity]. }
  assert (M2 : In (Meth (key_name row (contains o row) ++ txt "_us") [] (CRow true row) [citem_type key] [citem_type key]) ms).
  { right. apply in_app_iff. left. apply in_flat_map. eexists. split; [exact Hk|left; reflexivity]. }
  unfold run_by_id. cbn [method]. rewrite (find_unique ms _ N M1 : find (fun x => eqb_bytes (m_name x) (txt "get_by_id_us")) ms = _). cbn [m_call].
  destruct (ids_fine root T _ _ _ _ _ H) as (_ & NV & _).
  rewrite (arm_in _ (key_name row (contains o row) ++ txt "_us")).
  - rewrite (find_unique ms _ N M2 : find (fun x => eqb_bytes (m_name x) (key_name row (contains o row) ++ txt "_us")) ms = _). reflexivity.
  - unfold arms. rewrite map_fst_map. exact NV.
  - unfold arms. apply in_map_iff. eexists. split; [|exact Hk]. reflexivity.
Qed.

(* ------------------------------------------------------------------ *)
(** * Enums *)

Lemma run_enum L R iter (tables : hmap (hmap R)) stem l (it : item L) key v rows id r : iterates iter -> mlisted root stem l -> ld_enum l = true ->
  In (key, v) (ld_refs l) -> hget key tables = Some rows -> hget id rows = Some r ->
  exists enum kind it', In enum (generate old root) /\ decl_name enum = enum_type stem /\ In kind (generate old root) /\ decl_name kind = kind_type stem /\
    run_set_enum kind it (to_type_name key) id = Ok it' /\ run_get_enum iter tables enum it' l = Ok (to_type_name key, r).
Proof.
  intros It C En H Ht Hr. pose proof (mlisted_listed _ _ _ C) as L'. destruct (ref_keys root T stem l L') as (N & O & S).
  assert (Hk : In key (map fst (ld_refs l))) by (apply in_map_iff; exists (key, v); auto).
  exists (enum_decl stem l), (kind_decl stem l), (Item (it_values it) [(key, Val id)]).
  split; [apply generated_generate, generated_menum; assumption|]. split; [reflexivity|]. split; [apply generated_generate, generated_kind; assumption|]. split; [reflexivity|]. split.
  - unfold run_set_enum, kind_decl. rewrite (arm_in _ key); [reflexivity|rewrite map_fst_map; apply type_names_nodup; assumption|]. apply in_map_iff. exists key. auto.
  - unfold run_get_enum, enum_decl, item_enum. cbn [it_refs].
    assert (P : iter (qv (list Z)) [(key, Val id)] = [(key, Val id)]) by (apply Permutation_length_1_inv, Permutation_sym, It).
    rewrite P. cbn [flat_map fst snd app]. unfold item_ref, item_ref_id. cbn [it_refs hget]. rewrite eqb_bytes_refl, Ht, Hr. cbn [bind].
    rewrite (arm_in _ (to_type_name key)); [reflexivity|rewrite map_fst_map, map_id; exact N|]. apply in_map_iff. exists key. auto.
Qed.

End Tame.
