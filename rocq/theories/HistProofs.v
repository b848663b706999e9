(** C27: the file a save writes is new and becomes the newest. *)
From Verif Require Import Base CompactionModel StringCompactionModel StringCompactionProofs FileNameModel FileNameSpec FileNameProofs
  DocModel DiffProofs PhaseModel PhaseSpec PhaseProofs TreeModel TreeSpec TreeProofs HistModel HistSpec.

Lemma props_eqb_true p q : props_eqb p q = true <-> p = q.
Proof. unfold props_eqb. destruct (props_dec p q); split; congruence. Qed.
Lemma props_eqb_refl p : props_eqb p p = true.
Proof. now apply props_eqb_true. Qed.

Lemma u32_inc_ok n m : u32_inc n = Ok m -> m = n + 1 /\ n + 1 < 2 ^ 32.
Proof. unfold u32_inc. destruct (Z.ltb_spec (n + 1) (2 ^ 32)); intros E; [|discriminate]. apply Ok_inj in E. lia. Qed.

(** ** Folders *)

Lemma map_fst_hset_new {A} k (v : A) m : ~ In k (map fst m) -> map fst (hset k v m) = map fst m ++ [k].
Proof.
  induction m as [|[x a] m IH]; [reflexivity|]. cbn [hset map fst In]. intros N. destruct (eqb_bytes x k) eqn:E.
  - apply eqb_bytes_eq in E. subst. tauto.
  - cbn [map fst app]. f_equal. apply IH. tauto.
Qed.

Lemma folder_named {A} (dir : hmap A) fs junk name p : folder dir fs junk -> In name (map fst dir) ->
  analyze_file_name name = Ok (Some p) -> In p fs /\ name = filename p.
Proof.
  intros (_ & P & V & R & J) I E. apply (Permutation_in _ P) in I. apply in_app_or in I as [I|I].
  - apply in_map_iff in I as (q & <- & I). rewrite Forall_forall in V, R. destruct (analyze_name q) as [A' _]; [auto|]. rewrite A' in E by auto.
    apply Ok_inj in E. apply Some_inj in E. now subst.
  - rewrite Forall_forall in J. rewrite (J _ I) in E. discriminate.
Qed.

Lemma folder_add {A} (dir : hmap A) fs junk p v : folder dir fs junk -> valid_props p -> readable p -> ~ In p fs ->
  folder (hset (filename p) v dir) (fs ++ [p]) junk /\ ~ In (filename p) (map fst dir).
Proof.
  intros F V R N. assert (X : ~ In (filename p) (map fst dir)).
  { intros I. apply N. eapply folder_named; [exact F|exact I|]. now apply analyze_name. }
  split; [|assumption]. destruct F as (D & P & Vf & Rf & J). unfold folder. rewrite map_fst_hset_new by assumption. repeat split; auto.
  - eapply Permutation_NoDup; [apply Permutation_cons_append|]. now constructor.
  - rewrite P, map_app, <- !app_assoc. cbn [map app]. apply Permutation_app_head. symmetry. apply Permutation_cons_append.
  - apply Forall_app. auto.
  - apply Forall_app. auto.
Qed.

(** ** The newest file of a folder *)

Lemma last_at_exists fs q : In q fs -> exists q', last_at fs q' /\ position q' = position q.
Proof.
  induction fs as [|x fs IH] using rev_ind; [intros []|]. intros I.
  destruct (list_eq_dec Z.eq_dec (position x) (position q)) as [E|N].
  - exists x. split; [|assumption]. exists fs, []. now split.
  - apply in_app_or in I as [I|[->|[]]]; [|congruence]. destruct (IH I) as (q' & (l1 & l2 & -> & F) & E).
    exists q'. split; [|assumption]. exists l1, (l2 ++ [x]). split; [now rewrite <- app_assoc|]. apply Forall_app. split; [assumption|].
    constructor; [congruence|constructor].
Qed.

Lemma newest_in_list l : chronological l -> newest_in l (last_of l).
Proof.
  intros C. destruct (last_of l) as [p|] eqn:E; [|now apply last_of_none]. apply last_of_snoc in E as [l' ->]. cbn [newest_in].
  split; [apply in_or_app; right; now left|]. intros q I. apply in_app_or in I as [I|[->|[]]]; [right|now left].
  unfold chronological in C. induction l' as [|y l' IH]; [destruct I|]. cbn [app] in C. inversion C as [|? ? C' F]; subst.
  destruct I as [->|I]; [|auto]. rewrite Forall_forall in F. apply F. apply in_or_app. right. now left.
Qed.

Lemma history_newest fs np : Forall valid_props fs -> get_newest (history fs) = Some np ->
  In np fs /\ forall q, In q fs -> position q = position np \/ before q np.
Proof.
  intros V E. destruct (listing fs V) as (C & M & N). rewrite N in E. pose proof (newest_in_list _ C) as X. rewrite E in X. destruct X as [I G].
  split.
  - apply M in I as (l1 & l2 & -> & _). apply in_or_app. right. now left.
  - intros q J. destruct (last_at_exists fs q J) as (q' & L & P). apply M in L. rewrite <- P. unfold before. rewrite <- P. destruct (G q' L) as [->|B]; auto.
Qed.
Lemma history_no_newest fs : Forall valid_props fs -> get_newest (history fs) = None -> fs = [].
Proof.
  intros V E. destruct (listing fs V) as (C & M & N). rewrite N in E. apply last_of_none in E. destruct fs as [|q fs]; [reflexivity|].
  destruct (last_at_exists (q :: fs) q (or_introl eq_refl)) as (q' & L & _). apply M in L. rewrite E in L. destruct L.
Qed.
Lemma history_is_newest fs p : Forall valid_props fs -> In p fs -> (forall q, In q fs -> q = p \/ before q p) ->
  get_newest (history fs) = Some p.
Proof.
  intros V I G. destruct (listing fs V) as (C & M & N). rewrite N. symmetry. apply newest_last; [assumption|]. cbn [newest_in]. split.
  - apply M. destruct (last_at_exists fs p I) as (q & L & E). assert (q = p); [|now subst].
    assert (J : In q fs) by (destruct L as (l1 & l2 & -> & _); apply in_or_app; right; now left).
    destruct (G q J) as [?|B]; [assumption|]. unfold before in B. rewrite E in B. destruct (earlier_irrefl _ B).
  - intros q J. apply G. apply M in J as (l1 & l2 & -> & _). apply in_or_app. right. now left.
Qed.

(** the tree of a folder *)
Definition tree_of (h : tree) (fs : list props) : Prop := exists fs', Permutation fs' fs /\ h = history fs'.

Lemma folder_tree {A} (dir : hmap A) fs junk names : folder dir fs junk -> Permutation names (map fst dir) ->
  exists h, create_file_history names = Ok h /\ tree_of h fs.
Proof.
  intros (_ & P & V & R & J) Q. destruct (history_of_folder fs junk names V R J) as (fs' & P' & E); [now rewrite Q|].
  exists (history fs'). split; [assumption|]. exists fs'. auto.
Qed.

Lemma tree_of_get h fs : Forall valid_props fs -> tree_of h fs -> forall c o q, get_props h c o = Some q ->
  In q fs /\ position q = c :: o.
Proof.
  intros V (fs' & P & ->) c o q G. assert (V' : Forall valid_props fs') by (eapply Permutation_Forall; [symmetry; eassumption|assumption]).
  assert (N : o <> []). { intros ->. unfold get_props in G. destruct (bt_get c (children (history fs'))); discriminate. }
  rewrite get_props_item in G by assumption. apply history_get in G as [(l1 & l2 & E & _) Q]; [|assumption].
  split; [|assumption]. eapply Permutation_in; [exact P|]. rewrite E. apply in_or_app. right. now left.
Qed.

Lemma tree_of_newest h fs np : Forall valid_props fs -> tree_of h fs -> get_newest h = Some np ->
  In np fs /\ forall q, In q fs -> position q = position np \/ before q np.
Proof.
  intros V (fs' & P & ->) E. assert (V' : Forall valid_props fs') by (eapply Permutation_Forall; [symmetry; eassumption|assumption]).
  destruct (history_newest fs' np V' E) as [I G]. split; [eapply Permutation_in; eassumption|]. intros q J. apply G.
  eapply Permutation_in; [symmetry; eassumption|assumption].
Qed.
Lemma tree_of_no_newest h fs : Forall valid_props fs -> tree_of h fs -> get_newest h = None -> fs = [].
Proof.
  intros V (fs' & P & ->) E. assert (V' : Forall valid_props fs') by (eapply Permutation_Forall; [symmetry; eassumption|assumption]).
  apply history_no_newest in E; [|assumption]. subst. now apply Permutation_nil in P.
Qed.
Lemma tree_of_is_newest h fs p : Forall valid_props fs -> tree_of h fs -> In p fs -> (forall q, In q fs -> q = p \/ before q p) ->
  get_newest h = Some p.
Proof.
  intros V (fs' & P & ->) I G. assert (V' : Forall valid_props fs') by (eapply Permutation_Forall; [symmetry; eassumption|assumption]).
  apply history_is_newest; [assumption|eapply Permutation_in; [symmetry; eassumption|assumption]|]. intros q J. apply G.
  eapply Permutation_in; eassumption.
Qed.

(** ** Positions of derived files *)

Lemma last_default {A} (l : list A) a b : l <> [] -> last l a = last l b.
Proof. induction l as [|x [|y l] IH]; [congruence|reflexivity|]. intros _. apply IH. discriminate. Qed.

Lemma inc_last_ok o o' : inc_last o = Ok o' -> o' = removelast o ++ [last o 0 + 1] /\ last o 0 + 1 < 2 ^ 32.
Proof. unfold inc_last. intros H. apply bind_ok in H as (n & U & H). apply u32_inc_ok in U as [-> U]. apply Ok_inj in H. auto. Qed.

Lemma earlier_inc k o : (1 <= k <= length o)%nat -> earlier o (removelast (firstn k o) ++ [last (firstn k o) 0 + 1]).
Proof.
  intros K. rewrite <- (firstn_skipn k o) at 1. assert (N : firstn k o <> []). { intros E. apply (f_equal (@length Z)) in E. rewrite firstn_length in E. cbn in E. lia. }
  rewrite (app_removelast_last 0 N) at 1. rewrite <- app_assoc. apply earlier_app. cbn [app earlier]. left. lia.
Qed.
Lemma earlier_longer o x : earlier o (o ++ [x]).
Proof. rewrite <- (app_nil_r o) at 1. apply earlier_app. exact I. Qed.

Lemma firstn_u32 k o : Forall u32 o -> Forall u32 (firstn k o).
Proof. intros H. rewrite <- (firstn_skipn k o) in H. now apply Forall_app in H as [H _]. Qed.
Lemma inc_u32 o o' : Forall u32 o -> o <> [] -> inc_last o = Ok o' -> Forall u32 o' /\ o' <> [].
Proof.
  intros U N H. apply inc_last_ok in H as [-> L]. rewrite (app_removelast_last 0 N) in U. apply Forall_app in U as [U1 U2]. inversion U2; subst.
  unfold u32 in *. split; [|intros E; apply app_eq_nil in E as [_ E]; discriminate]. apply Forall_app. split; [assumption|]. constructor; [lia|constructor].
Qed.

Lemma create_dependencies_ok anc np ctl tag maxp cum deps p from : last anc from = from -> anc <> [] ->
  valid_props from -> Forall valid_props anc -> u32 ctl -> match tag with Some t => CompactionModel.utf8_valid t = true | None => True end ->
  create_dependencies anc np ctl tag maxp cum = Ok (deps, p) ->
  p_control p = ctl /\ p_tag p = tag /\ valid_props p /\ earlier (p_order from) (p_order p).
Proof.
  intros L N (Vc & Vp & Vo & Vn & _) Va Uc Ut H. destruct anc as [|a anc]; [congruence|]. unfold create_dependencies in H.
  assert (E : last (a :: anc) a = from). { rewrite <- L. apply last_default. discriminate. }
  rewrite E in H. clear E. apply bind_ok in H as ([o c] & H1 & H2). cbv zeta in H1.
  assert (X : Forall u32 o /\ o <> [] /\ earlier (p_order from) o /\ u32 c).
  { destruct (length (p_order from) - 1 <? maxp)%nat.
    - apply Ok_inj in H1. inversion H1; subst. split; [apply Forall_app; split; [assumption|constructor; [unfold u32; lia|constructor]]|].
      split; [intros E; apply app_eq_nil in E as [_ E]; discriminate|]. split; [apply earlier_longer|assumption].
    - destruct (np =? maxp)%nat.
      + apply bind_ok in H1 as (o1 & I & H1). apply Ok_inj in H1. inversion H1; subst. destruct (inc_u32 _ _ Vo Vn I) as [A B].
        split; [assumption|]. split; [assumption|]. split; [|assumption]. apply inc_last_ok in I as [-> _].
        pose proof (earlier_inc (length (p_order from)) (p_order from)) as Q. rewrite firstn_all in Q. apply Q. destruct (p_order from); [congruence|cbn [length]; lia].
      + destruct (Nat.leb_spec (S np) (length (p_order from))) as [Q|Q]; [|discriminate]. apply bind_ok in H1 as (o1 & I & H1).
        destruct (nth_error (a :: anc) np) as [q|] eqn:Eq; [|discriminate]. apply Ok_inj in H1. inversion H1; subst.
        assert (Nf : firstn (S np) (p_order from) <> []). { intros E. apply (f_equal (@length Z)) in E. rewrite firstn_length in E. cbn [length] in E. lia. }
        destruct (inc_u32 _ _ (firstn_u32 (S np) _ Vo) Nf I) as [A B]. split; [assumption|]. split; [assumption|].
        apply inc_last_ok in I as [-> _]. split; [apply earlier_inc; lia|]. rewrite Forall_forall in Va. apply (Va q). eapply nth_error_In, Eq. }
  destruct X as (X1 & X2 & X3 & X4). apply bind_ok in H2 as (p' & P & H2). unfold props_new in P. destruct o as [|o0 o]; [congruence|]. cbn [ok_or] in P.
  apply Ok_inj in P.
  assert (p = p').
  { destruct ((np =? maxp)%nat && cum); [apply Ok_inj in H2; congruence|]. destruct (np <=? length (a :: anc))%nat; [|discriminate]. apply Ok_inj in H2. congruence. }
  subst p p'. cbn [p_control p_tag p_order]. unfold valid_props. cbn [p_control p_prev p_order p_tag]. auto 10.
Qed.

(** ** Steps of an operation *)

Section Steps.
Context {doc : Type}.
Variable mkdiff : doc -> doc -> res (list Z).
Variable appdiff : doc -> list Z -> res doc.
Variable src : doc.
Variable op : options.

Lemma bindM_ok {A B} (m : M doc A) (f : A -> M doc B) s b s' : bindM doc m f s = (Ok b, s') ->
  exists a s1, m s = (Ok a, s1) /\ f a s1 = (Ok b, s').
Proof. unfold bindM. destruct (m s) as [[a| |] s1]; intros H; try discriminate. eauto. Qed.
Lemma ret_ok {A} (r : res A) s a s' : ret doc r s = (Ok a, s') -> r = Ok a /\ s' = s.
Proof. unfold ret. intros H. inversion H. auto. Qed.

Lemma apply_caching_frame paths : forall root i s r s', apply_caching doc appdiff op root i paths s = (r, s') ->
  s_dir doc s' = s_dir doc s /\ s_cur doc s' = s_cur doc s.
Proof.
  induction paths as [|p paths IH]; intros root i s r s' H; cbn [apply_caching] in H; [unfold ret in H; inversion H; auto|].
  destruct (apply_item doc appdiff (s_dir doc s) root p); [|inversion H; auto|inversion H; auto].
  destruct (i <? max_phase op)%nat; apply IH in H; cbn [s_dir s_cur] in H; assumption.
Qed.
Lemma apply_save_frame paths s r s' : apply_items_for_save doc appdiff src op paths s = (r, s') ->
  s_dir doc s' = s_dir doc s /\ s_cur doc s' = s_cur doc s.
Proof.
  unfold apply_items_for_save. destruct (get_cached_item doc op src (s_cache doc s) paths) as [[root rest]| |]; intros H; [|inversion H; auto|inversion H; auto].
  apply apply_caching_frame in H. assumption.
Qed.

(** a successful derivation *)
Lemma derive_ok greater tag d h from s p s' : derive_impl doc mkdiff appdiff src op greater tag d h from s = (Ok p, s') ->
  exists np ctl content vals k rest data j anc deps composed s1 v data' header,
    get_newest h = Some np /\
    (if props_eqb np from then Ok (p_control np) else u32_inc (p_control np)) = Ok ctl /\
    hget (filename from) (s_dir doc s) = Some content /\ decode content = Ok (vals, k, rest) /\ decode_pdata vals = Ok data /\
    calc_next_phase greater data op = Ok j /\ create_ancestors h from (max_phase op) (is_cumulative op) = Ok anc /\
    create_dependencies anc j ctl tag (max_phase op) (is_cumulative op) = Ok (deps, p) /\
    apply_items_for_save doc appdiff src op (map filename deps) s = (Ok composed, s1) /\
    mkdiff composed d = Ok v /\ pop_and_push data j (zlen v) = Ok data' /\ encode (encode_pdata data') = Ok header /\
    s' = St doc (hset (filename p) (header ++ v) (s_dir doc s)) (bt_insert (Z.of_nat j) (filename p, d) (remove_upper_phase_cache doc (s_cache doc s1) j)) (s_cur doc s).
Proof.
  unfold derive_impl. destruct (get_newest h) as [np|]; [|discriminate]. intros H.
  apply bindM_ok in H as (ctl & s0 & X & H). apply ret_ok in X as [Ec ->].
  apply bindM_ok in H as (content & s0 & X & H). cbv beta in X. inversion X as [[Eo Es]]. subst s0. clear X. unfold open in Eo.
  destruct (hget (filename from) (s_dir doc s)) as [c|] eqn:Ec'; [|discriminate]. cbn [ok_or] in Eo. apply Ok_inj in Eo. subst c.
  apply bindM_ok in H as ([[vals k] rest] & s0 & X & H). apply ret_ok in X as [Ed ->].
  apply bindM_ok in H as (data & s0 & X & H). apply ret_ok in X as [Ep ->].
  apply bindM_ok in H as (j & s0 & X & H). apply ret_ok in X as [Ej ->].
  apply bindM_ok in H as (anc & s0 & X & H). apply ret_ok in X as [Ea ->].
  apply bindM_ok in H as ([deps q] & s0 & X & H). apply ret_ok in X as [Edp ->].
  apply bindM_ok in H as (composed & s1 & Es & H).
  apply bindM_ok in H as (v & s0 & X & H). apply ret_ok in X as [Ev ->].
  apply bindM_ok in H as (data' & s0 & X & H). apply ret_ok in X as [Ed' ->].
  apply bindM_ok in H as ([] & s2 & Ew & H). apply bindM_ok in H as ([] & s3 & Et & H). apply ret_ok in H as [E ->]. apply Ok_inj in E. subst q.
  unfold write_phase_file in Ew. destruct (encode (encode_pdata data')) as [header| |] eqn:Eh; [|discriminate|discriminate].
  inversion Ew. subst s2. clear Ew. unfold set_cache in Et. inversion Et. subst s3. clear Et. cbn [s_dir s_cache s_cur].
  destruct (apply_save_frame _ _ _ _ Es) as [-> ->].
  exists np, ctl, content, vals, k, rest, data, j, anc, deps, composed, s1, v, data', header. rewrite Ea. intuition congruence.
Qed.

(** a successful first file of a control number *)
Lemma write_0_ok control d s p s' : 0 <= control -> write_phase_0 doc mkdiff appdiff src op None control d s = (Ok p, s') ->
  exists composed s1 v header,
    apply_items_for_save doc appdiff src op [] s = (Ok composed, s1) /\
    mkdiff composed d = Ok v /\ encode (encode_pdata (pdata_new (zlen v))) = Ok header /\
    analyze_file_name (calc_filename None control None [0]) = Ok (Some p) /\
    s' = St doc (hset (calc_filename None control None [0]) (header ++ v) (s_dir doc s))
           (bt_insert 0 (calc_filename None control None [0], d) (remove_upper_phase_cache doc (s_cache doc s1) 0)) (s_cur doc s).
Proof.
  intros C0 H. unfold write_phase_0 in H. cbv zeta in H.
  apply bindM_ok in H as (composed & s1 & Es & H).
  apply bindM_ok in H as (v & s0 & X & H). apply ret_ok in X as [Ev ->].
  apply bindM_ok in H as ([] & s2 & Ew & H). apply bindM_ok in H as ([] & s3 & Et & H).
  apply bindM_ok in H as (o & s0 & X & H). apply ret_ok in X as [Eo ->]. apply ret_ok in H as [E ->].
  destruct o as [p'|]; [|discriminate]. cbn [ok_or] in E. apply Ok_inj in E. subst p'.
  unfold write_phase_file in Ew. destruct (encode (encode_pdata (pdata_new (zlen v)))) as [header| |] eqn:Eh; [|discriminate|discriminate].
  inversion Ew. subst s2. clear Ew. unfold set_cache in Et. inversion Et. subst s3. clear Et. cbn [s_dir s_cache s_cur].
  destruct (apply_save_frame _ _ _ _ Es) as [-> ->]. exists composed, s1, v, header. auto.
Qed.

End Steps.

(** ** Ancestors are files *)

Lemma siblings_in h base (P : props -> Prop) : (forall c o q, get_props h c o = Some q -> P q) -> forall n p l r,
  siblings h base n p = Ok (l, r) -> Forall P l /\ (r = p \/ P r).
Proof.
  intros G. induction n as [|n IH]; intros p l r H; cbn [siblings] in H.
  - apply Ok_inj in H. inversion H; subst. split; [constructor|now left].
  - destruct (get_props h (p_prev p) (base ++ [Z.of_nat n])) as [q|] eqn:E; [|discriminate]. apply bind_ok in H as ([l' r'] & S & H).
    apply Ok_inj in H. inversion H; subst. destruct (IH _ _ _ S) as [A B]. split; [constructor; eauto|]. right. destruct B as [->|B]; eauto.
Qed.
Lemma parents_in h (P : props -> Prop) : (forall c o q, get_props h c o = Some q -> P q) -> forall n p l,
  parents n h p = Ok l -> Forall P l.
Proof.
  intros G. induction n as [|n IH]; intros p l H; cbn [parents] in H; destruct (2 <=? length (p_order p))%nat; try discriminate;
    try (apply Ok_inj in H; subst; constructor).
  destruct (get_parent h p) as [q|] eqn:E; [|discriminate]. apply bind_ok in H as (l' & S & H). apply Ok_inj in H. subst. constructor; [|eauto].
  unfold get_parent in E. eauto.
Qed.
Lemma ancestors_in h (P : props -> Prop) p maxp cum l : (forall c o q, get_props h c o = Some q -> P q) ->
  create_ancestors h p maxp cum = Ok l -> exists l', l = l' ++ [p] /\ Forall P l'.
Proof.
  intros G H. unfold create_ancestors in H. apply bind_ok in H as (r & R & H). apply Ok_inj in H. rewrite <- H. clear H. unfold create_ancestors_rev in R.
  assert (X : r = [p] \/ exists l q l', siblings h (order_base p) (if (phase p =? maxp)%nat && cum then Z.to_nat (order_last p) else 0%nat) p = Ok (l, q) /\
    parents (length (p_order q)) h q = Ok l' /\ r = p :: l ++ l').
  { destruct (p_order p); [left; now apply Ok_inj in R|right]. apply bind_ok in R as ([l1 q] & S & R). apply bind_ok in R as (l2 & Pa & R). apply Ok_inj in R.
    exists l1, q, l2. split; [destruct ((phase p =? maxp)%nat && cum); exact S|]. split; [exact Pa|congruence]. }
  destruct X as [->|(a & q & b & S & Pa & ->)]; [exists []; split; [reflexivity|constructor]|].
  destruct (siblings_in h _ P G _ _ _ _ S) as [A _]. pose proof (parents_in h P G _ _ _ Pa) as B. exists (rev (a ++ b)). split; [reflexivity|].
  apply Forall_rev, Forall_app. auto.
Qed.

(** ** C27 *)

Section Newest.
Context {doc : Type}.
Variable mkdiff : doc -> doc -> res (list Z).
Variable appdiff : doc -> list Z -> res doc.
Variable src : doc.
Variable op : options.
Variable greater : Z -> Z -> Z -> Z -> bool.

(** the file is after every file there was *)
Definition after_all (fs : list props) (p : props) : Prop := forall q, In q fs -> before q p.

Lemma derive_later tag d fs h from s p s' : Forall valid_props fs -> tree_of h fs -> valid_props from ->
  match tag with Some t => CompactionModel.utf8_valid t = true | None => True end ->
  derive_impl doc mkdiff appdiff src op greater tag d h from s = (Ok p, s') ->
  valid_props p /\ p_tag p = tag /\ after_all fs p /\ exists content, s_dir doc s' = hset (filename p) content (s_dir doc s).
Proof.
  intros V T Vf Vt H. apply derive_ok in H as (np & ctl & content & vals & k & rest & data & j & anc & deps & composed & s1 & v & data' & header &
    En & Ec & _ & _ & _ & _ & Ea & Ed & _ & _ & _ & _ & ->).
  destruct (tree_of_newest h fs np V T En) as [In_np Max]. assert (Vn : valid_props np) by (rewrite Forall_forall in V; auto).
  destruct (ancestors_in h valid_props from _ _ _ (fun c o q G => proj1 (Forall_forall _ _) V q (proj1 (tree_of_get h fs V T c o q G))) Ea) as (l' & -> & Fl).
  assert (Uc : u32 ctl).
  { destruct (props_eqb np from); [apply Ok_inj in Ec; subst; apply Vn|]. apply u32_inc_ok in Ec as [-> L]. destruct Vn as (? & _). unfold u32 in *. lia. }
  apply (create_dependencies_ok _ _ _ _ _ _ _ _ from) in Ed as (Pc & Pt & Vp & Lt); auto.
  - split; [assumption|]. split; [assumption|]. split; [|cbn [s_dir]; eauto]. intros q I. unfold before.
    destruct (props_eqb np from) eqn:E.
    + apply props_eqb_true in E. apply Ok_inj in Ec. subst from. assert (B : before np p). { unfold before, position. rewrite Pc, <- Ec. right. auto. }
      destruct (Max q I) as [->|B']; [exact B|]. unfold before in *. eapply earlier_trans; eassumption.
    + apply u32_inc_ok in Ec as [-> _]. unfold position. rewrite Pc. left. destruct (Max q I) as [E'|B].
      * unfold position in E'. inversion E'. lia.
      * unfold before, position in B. cbn [earlier] in B. lia.
  - apply last_last.
  - intros E. apply app_eq_nil in E as [_ E]. discriminate.
  - apply Forall_app. auto.
Qed.

Lemma phase_0_props control p : u32 control -> analyze_file_name (calc_filename None control None [0]) = Ok (Some p) ->
  p = Props control control [0] None /\ valid_props p /\ filename p = calc_filename None control None [0] /\ readable p.
Proof.
  intros U E. assert (V : valid_props (Props control control [0] None)).
  { unfold valid_props. cbn [p_control p_prev p_order p_tag]. repeat split; try assumption; try apply U; [|discriminate].
    constructor; [unfold u32; lia|constructor]. }
  assert (F : filename (Props control control [0] None) = calc_filename None control None [0]).
  { unfold filename. cbn [p_control p_prev p_order p_tag]. now rewrite Z.eqb_refl. }
  destruct (analyze_name _ V) as (A & B & _). rewrite F in A, B.
  assert (D : readable (Props control control [0] None)).
  { destruct (Z.ltb_spec control 100000000) as [L|L].
    - repeat split; auto. constructor; [reflexivity|constructor].
    - exfalso. destruct B as [X|X]; [|congruence|congruence]. intros (_ & X & _). cbn [p_control] in X. lia. }
  rewrite (A D) in E. apply Ok_inj in E. apply Some_inj in E. subst. auto.
Qed.

Lemma start_new_later d fs junk s p s' : folder (s_dir doc s) fs junk ->
  start_new doc mkdiff appdiff src op None d s = (Ok p, s') ->
  valid_props p /\ readable p /\ after_all fs p /\ exists content, s_dir doc s' = hset (filename p) content (s_dir doc s).
Proof.
  intros F H. pose proof F as (_ & _ & V & _). destruct (folder_tree _ _ _ _ F (Permutation_refl _)) as (h & C & T).
  unfold start_new in H. rewrite C in H. destruct (get_newest h) as [np|] eqn:En.
  - apply bindM_ok in H as (ctl & s0 & X & H). apply ret_ok in X as [Ec ->]. destruct (tree_of_newest h fs np V T En) as [In_np Max].
    assert (Vn : valid_props np) by (rewrite Forall_forall in V; auto). destruct Vn as ([L0 L1] & _). apply u32_inc_ok in Ec as [-> L].
    apply write_0_ok in H as (composed & s1 & v & header & _ & _ & _ & A & ->); [|lia].
    apply phase_0_props in A as (E & Vp & Fn & Rd); [|unfold u32; lia]. rewrite <- Fn. split; [assumption|]. split; [assumption|].
    split; [|cbn [s_dir]; eauto]. intros q I. subst p. unfold before. unfold position at 2. left. cbn [p_control]. destruct (Max q I) as [E'|B].
    + unfold position in E'. inversion E'. lia.
    + unfold before, position in B. cbn [earlier] in B. lia.
  - apply write_0_ok in H as (composed & s1 & v & header & _ & _ & _ & A & ->); [|lia].
    apply phase_0_props in A as (E & Vp & Fn & Rd); [|unfold u32; lia]. rewrite <- Fn. split; [assumption|]. split; [assumption|].
    split; [|cbn [s_dir]; eauto]. apply (tree_of_no_newest h fs V T) in En. subst fs. intros q [].
Qed.

Lemma choose_from_valid h fs newest base from : Forall valid_props fs -> tree_of h fs -> valid_props base ->
  choose_from op h newest base = Ok from -> valid_props from.
Proof.
  intros V T Vb H. unfold choose_from in H. destruct ((phase base =? max_phase op)%nat && negb (props_eqb base newest)); [|apply Ok_inj in H; congruence].
  destruct (get_parent h base) as [q|] eqn:E; [|discriminate]. cbn [ok_or] in H. apply Ok_inj in H. subst q. unfold get_parent in E.
  apply (tree_of_get h fs V T) in E as [I _]. rewrite Forall_forall in V. auto.
Qed.

Lemma save_later id d fs junk s p s' : folder (s_dir doc s) fs junk ->
  (forall id base, s_cur doc s = Some (id, base) -> valid_props base) ->
  save_history_file doc mkdiff appdiff src op greater None id d s = (Ok p, s') -> 
  valid_props p /\ p_tag p = None /\ after_all fs p /\ exists content, s_dir doc s' = hset (filename p) content (s_dir doc s).
Proof.
  intros F Cur H. unfold save_history_file in H. pose proof F as (_ & _ & V & _).
  destruct (folder_tree _ _ _ _ F (Permutation_refl _)) as (h & C & T).
  assert (Fresh : forall s', bindM doc (start_new doc mkdiff appdiff src op None d)
    (fun saved => bindM doc (set_cur doc id saved) (fun _ => ret doc (Ok saved))) s = (Ok p, s') ->
    valid_props p /\ p_tag p = None /\ after_all fs p /\ exists content, s_dir doc s' = hset (filename p) content (s_dir doc s)).
  { intros s2 X. apply bindM_ok in X as (q & s3 & X & Y). apply bindM_ok in Y as ([] & s4 & Y & W). apply ret_ok in W as [W ->]. apply Ok_inj in W. subst q.
    unfold set_cur in Y. inversion Y; subst. cbn [s_dir]. apply (start_new_later d fs junk) in X as (A & (B & _) & D & E); [|exact F]. auto. }
  destruct (s_cur doc s) as [[cur_id base]|] eqn:Ec; [|apply Fresh, H]. destruct (id =? cur_id); [|apply Fresh, H]. rewrite C in H.
  destruct (get_newest h) as [np|] eqn:En; [|apply Fresh, H].
  apply bindM_ok in H as (from & s0 & X & H). apply ret_ok in X as [Ef ->].
  apply bindM_ok in H as (q & s3 & X & Y). apply bindM_ok in Y as ([] & s4 & Y & W). apply ret_ok in W as [W ->]. apply Ok_inj in W. subst q.
  unfold set_cur in Y. inversion Y; subst. cbn [s_dir]. apply (derive_later None d fs) in X; auto. eapply choose_from_valid; eauto.
Qed.

Lemma save_newest id d fs junk s p s' : folder (s_dir doc s) fs junk ->
  (forall id base, s_cur doc s = Some (id, base) -> valid_props base) ->
  save_history_file doc mkdiff appdiff src op greater None id d s = (Ok p, s') -> readable p ->
  ~ In (filename p) (map fst (s_dir doc s)) /\
  folder (s_dir doc s') (fs ++ [p]) junk /\
  (forall name content, hget name (s_dir doc s) = Some content -> hget name (s_dir doc s') = Some content) /\
  (forall names, Permutation names (map fst (s_dir doc s')) ->
     exists h, create_file_history names = Ok h /\ get_newest h = Some p).
Proof.
  intros F Cur H R. apply (save_later id d fs junk) in H as (Vp & _ & A & content & E); auto.
  assert (N : ~ In p fs). { intros I. apply (earlier_irrefl _ (A p I)). }
  destruct (folder_add _ fs junk p content F Vp R N) as [F' X]. rewrite <- E in F'. split; [assumption|]. split; [assumption|]. split.
  - intros name c G. rewrite E. rewrite hget_hset_other; [assumption|]. intros ->. apply X. apply hget_in in G. apply (in_map fst) in G. exact G.
  - intros names Q. destruct (folder_tree _ _ _ _ F' Q) as (h & C & T). exists h. split; [assumption|]. pose proof F' as (_ & _ & V & _).
    apply (tree_of_is_newest h (fs ++ [p])); auto; [apply in_or_app; right; now left|]. intros q I. apply in_app_or in I as [I|[->|[]]]; auto.
Qed.

End Newest.
