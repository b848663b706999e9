(** The theorems on removing old files. *)
From Verif Require Import Base CompactionModel StringCompactionModel StringCompactionProofs FileNameModel FileNameSpec FileNameProofs
  DocModel DiffProofs PhaseModel TreeModel TreeSpec TreeProofs HistModel HistSpec HistProofs ChainProofs HistInvProofs HistSaveProofs
  RemoveModel RemoveSpec RemoveProofs RemoveLoadProofs.

(** ** The list of removable files *)

Lemma removable_list maxp cum h n : tree_ok [] h -> items h = [] ->
  exists l K, get_removable_old_items maxp cum h n = Ok l /\ l = get_removable (remover_from maxp cum h) K /\
    keep_each (remover_from maxp cum h) [] (lastn n (list_files h)) = Ok K /\
    step_ok maxp cum h K None /\ incl l (list_files h) /\ (forall p, In p (lastn n (list_files h)) -> ~ In p l) /\
    (forall p it q, In p (lastn n (list_files h)) -> cue_item (remover_from maxp cum h) (Cue (p_control p) (p_order p) None) = Some it -> r_prop it = Some q -> In (position p) K).
Proof.
  intros T I. unfold get_removable_old_items. destruct (keep_each_ok maxp cum h (lastn n (list_files h)) []) as (K & E & _ & C & _ & P).
  - split; [constructor|intros x []].
  - intros c it p c' it' p' [].
  - exists (get_removable (remover_from maxp cum h) K), K. pose proof E as E0. unfold lastn in E0. rewrite E0. cbn [bind]. split; [reflexivity|]. split; [reflexivity|]. split; [exact E|]. split; [exact C|].
    split; [|split; [|exact P]].
    + intros q J. apply get_removable_found in J as (A & _); [|assumption]. now rewrite list_files_flatten.
    + intros p Ip J. apply get_removable_found in J as (_ & B & _ & it & F & Q); [|assumption]. apply B. eapply P; eassumption.
Qed.

(** ** Removing names *)

Definition named_in (l : list props) (name : list Z) : bool := existsb (fun p => eqb_bytes (filename p) name) l.

Lemma filter_filter {A} (f g : A -> bool) l : filter f (filter g l) = filter (fun x => g x && f x) l.
Proof. induction l as [|x l IH]; [reflexivity|]. cbn [filter]. destruct (g x); cbn [andb filter]; [destruct (f x)|]; now rewrite IH. Qed.

Lemma remove_files_filter {A} l (dir : hmap A) : remove_files l dir = filter (fun e => negb (named_in l (fst e))) dir.
Proof.
  unfold remove_files. revert dir. induction l as [|p l IH]; intros dir; cbn [fold_left].
  - induction dir as [|e dir IHd]; [reflexivity|]. cbn [filter]. rewrite <- IHd. reflexivity.
  - rewrite IH. unfold hdel. rewrite filter_filter. apply filter_ext. intros e. unfold named_in. cbn [existsb]. destruct (eqb_bytes (filename p) (fst e)); reflexivity.
Qed.

Lemma named_in_spec l name : named_in l name = true <-> exists p, In p l /\ filename p = name.
Proof.
  unfold named_in. rewrite existsb_exists. split; intros (p & I & E); exists p; (split; [exact I|]); now apply eqb_bytes_eq.
Qed.

Lemma named_in_file l p : Forall valid_props l -> valid_props p -> (named_in l (filename p) = true <-> In p l).
Proof.
  intros V Vp. rewrite named_in_spec. split; [intros (q & I & E)|intros I; eauto]. rewrite Forall_forall in V. apply filename_inj in E; auto. now subst.
Qed.

Section Fold.
Variable dir : hmap (list Z).
Variable fs : list props.
Variable junk : list (list Z).
Hypothesis Fo : folder dir fs junk.
Hypothesis Sep : separate fs.

Lemma folder_h names : Permutation names (map fst dir) -> exists h, create_file_history names = Ok h /\ tree_ok [] h /\ items h = [] /\ looks h fs /\
  (forall q, In q (flatten h) <-> In q fs) /\ Permutation (list_files h) fs /\ chronological (list_files h).
Proof.
  intros P. pose proof Fo as (N & Q & V & R & J). destruct (folder_tree _ _ _ _ Fo P) as (h & Ch & T). exists h. split; [exact Ch|].
  pose proof (tree_looks h fs V Sep T) as Lk. destruct T as (fs' & P' & ->). assert (V' : Forall valid_props fs') by (eapply Permutation_Forall; [symmetry; exact P'|assumption]).
  destruct (history_ok fs' V') as [Tok It]. assert (Pl : Permutation (list_files (history fs')) fs).
  { rewrite separate_perm; auto. eapply separate_permute; eassumption. }
  split; [exact Tok|]. split; [exact It|]. split; [exact Lk|]. split; [|split; [exact Pl|apply listing; assumption]].
  intros q. rewrite <- list_files_flatten by assumption. split; intros X; [eapply Permutation_in; [exact Pl|exact X]|eapply Permutation_in; [symmetry; exact Pl|exact X]].
Qed.

Lemma folder_remove gone : incl gone fs -> folder (remove_files gone dir) (filter (fun p => negb (named_in gone (filename p))) fs) junk.
Proof.
  intros Ig. pose proof Fo as (N & P & V & R & Jk). rewrite remove_files_filter. assert (Gj : Forall (fun name => named_in gone name = false) junk).
  { rewrite Forall_forall in *. intros name J. destruct (named_in gone name) eqn:E; [|reflexivity]. apply named_in_spec in E as (p & Ip & <-). specialize (Jk _ J).
    apply Ig in Ip. rewrite (proj1 (analyze_name p (V p Ip))) in Jk by auto. discriminate. }
  unfold folder. rewrite (map_fst_filter (fun k => negb (named_in gone k))). split; [now apply NoDup_filter|]. split.
  - rewrite (filter_perm _ _ _ P), filter_app, filter_map_comm. replace (filter (fun k => negb (named_in gone k)) junk) with junk; [reflexivity|].
    clear -Gj. induction Gj as [|x l G _ IH]; [reflexivity|]. cbn [filter]. rewrite G. cbn [negb]. now rewrite <- IH.
  - split; [|split; [|assumption]]; rewrite Forall_forall in *; intros y Y; apply filter_In in Y as [Y _]; auto.
Qed.

Lemma separate_filter f : separate (filter f fs).
Proof.
  unfold separate in *. clear Fo. induction fs as [|x l IH]; [constructor|]. cbn [map] in Sep. inversion Sep as [|? ? N S']; subst. cbn [filter]. destruct (f x); [|auto]. cbn [map]. constructor; [|auto].
  intros I. apply N. apply in_map_iff in I as (y & E & I). apply filter_In in I as [I _]. rewrite <- E. now apply in_map.
Qed.

Variable op : options.
Notation maxp := (max_phase op).
Notation cum := (is_cumulative op).
Hypothesis Small : forall p, In p fs -> (phase p <= maxp)%nat.
Hypothesis Reg : regular maxp cum fs.

(** a file that stays keeps its chain *)
Lemma chain_stays h n l gone p c : tree_ok [] h -> items h = [] -> looks h fs -> (forall q, In q (flatten h) <-> In q fs) ->
  get_removable_old_items maxp cum h n = Ok l -> incl gone l -> In p fs -> ~ In p l -> chain maxp cum fs p c ->
  forall q, In q c -> In q fs /\ named_in gone (filename q) = false.
Proof.
  intros T It Lk Fl E Ig Ip Np C q Q. pose proof Fo as (_ & _ & V & _). destruct (removable_list maxp cum h n T It) as (l' & K & E' & El & _ & St & Il & _). rewrite E in E'. apply Ok_inj in E'. subst l'.
  assert (Kp : In (position p) K).
  { destruct (in_dec path_dec (position p) K) as [?|Nk]; [assumption|exfalso]. apply Np. rewrite El. destruct (cue_at fs V p Ip) as (cu & Ec & Nc).
    destruct (cue_file maxp cum h fs T Lk V Fl Small cu p Ip Ec Nc) as (it & A & B & _). apply (get_removable_complete maxp cum h K cu it p A B). now rewrite Ec. }
  destruct (kept_chain maxp cum h fs T Lk V Fl Small Reg K p c St C Ip Kp q Q) as [Iq Kq]. split; [assumption|].
  destruct (named_in gone (filename q)) eqn:G; [|reflexivity]. exfalso. apply named_in_spec in G as (q' & Ig' & En). apply Ig in Ig'.
  assert (Iq' : In q' fs). { apply Fl. rewrite <- list_files_flatten by assumption. now apply Il. }
  rewrite Forall_forall in V. apply filename_inj in En; auto. subst q'. rewrite El in Ig'. apply get_removable_found in Ig' as (_ & B & _); auto.
Qed.

Lemma hget_removed gone name : named_in gone name = false -> hget name (remove_files gone dir) = hget name dir.
Proof. intros G. rewrite remove_files_filter. apply (hget_filter (fun k => negb (named_in gone k))). now rewrite G. Qed.

Section Load.
Context {doc : Type}.
Variable appdiff : doc -> list Z -> res doc.
Variable src : doc.
Notation load := (load_history_file doc appdiff src op).

Lemma apply_items_removed gone paths : Forall (fun name => named_in gone name = false) paths -> forall root,
  apply_items doc appdiff (remove_files gone dir) root paths = apply_items doc appdiff dir root paths.
Proof.
  induction 1 as [|name paths G F IH]; intros root; [reflexivity|]. cbn [apply_items]. unfold apply_item, open_diff_file, open. rewrite hget_removed by assumption.
  destruct (ok_or (hget name dir)) as [content| |]; cbn [bind]; try reflexivity. destruct (decode content) as [[[vals k] rest]| |]; cbn [bind]; try reflexivity.
  destruct (appdiff root rest) as [r| |]; cbn [bind]; auto.
Qed.

Lemma cached_rest c : forall root l root' rest, get_cached_item doc op root c l = Ok (root', rest) -> incl rest l.
Proof.
  intros root l root' rest H. unfold get_cached_item in H. destruct (get_phase_cache doc op c l) as [i|]; [|apply Ok_inj in H; inversion H; subst; apply incl_refl].
  destruct (bt_get i c) as [[nm r]|]; [|discriminate]. apply Ok_inj in H. inversion H as [[E1 E2]]. destruct (i =? Z.of_nat maxp); [intros x []|]. intros x X.
  rewrite <- (firstn_skipn (S (Z.to_nat i)) l). apply in_or_app. now right.
Qed.

Lemma load_removed names h n l gone p id id' c cur cur' d s' : Permutation names (map fst dir) -> create_file_history names = Ok h ->
  get_removable_old_items maxp cum h n = Ok l -> incl gone l -> In p fs -> ~ In p l ->
  load id p (St doc dir c cur) = (Ok d, s') -> load id' p (St doc (remove_files gone dir) c cur') = (Ok d, St doc (remove_files gone dir) c (Some (id', p))).
Proof.
  intros Pn Ch E Ig Ip Np H. pose proof Fo as (_ & _ & V & Rd & _). destruct (folder_h names Pn) as (h1 & Ch1 & T & It & Lk & Fl & Pl & Cl). rewrite Ch in Ch1. apply Ok_inj in Ch1. subst h1.
  destruct (removable_list maxp cum h n T It) as (l' & K & E' & _ & _ & _ & Il & _). rewrite E in E'. apply Ok_inj in E'. subst l'.
  assert (Igf : incl gone fs). { intros q X. apply Fl. rewrite <- list_files_flatten by assumption. auto. }
  destruct (folder_h _ (Permutation_refl _)) as (h0 & Ch0 & T0 & It0 & Lk0 & Fl0 & _).
  assert (Lk' : looks h0 fs) by assumption.
  unfold load_history_file in H. cbn [s_dir] in H. rewrite Ch0 in H. apply bindM_ok in H as (d' & s1 & H & H2).
  unfold HistModel.load in H. assert (Vp : valid_props p) by (rewrite Forall_forall in V; auto). assert (Rp : readable p) by (rewrite Forall_forall in Rd; auto).
  pose proof (proj1 (analyze_name p Vp) Rp) as An. rewrite An in H. apply bindM_ok in H as (o & s2 & X & H). apply ret_ok in X as [X ->]. apply Ok_inj in X. subst o.
  apply bindM_ok in H as (p' & s2 & X & H). apply ret_ok in X as [X ->]. cbn [ok_or] in X. apply Ok_inj in X. subst p'.
  apply bindM_ok in H as (anc & s2 & X & H). apply ret_ok in X as [Ea ->].
  pose proof (ancestors_chain maxp cum fs h0 p anc Lk' V Vp (Small p Ip) Ea) as C.
  pose proof (chain_stays h n l gone p anc T It Lk Fl E Ig Ip Np C) as Stay.
  pose proof (folder_remove gone Igf) as Fo2. pose proof (separate_filter (fun p => negb (named_in gone (filename p)))) as Sep2.
  assert (V2 : Forall valid_props (filter (fun p => negb (named_in gone (filename p))) fs)) by apply Fo2.
  destruct (folder_tree _ _ _ _ Fo2 (Permutation_refl _)) as (h2 & Ch2 & T2). pose proof (tree_looks _ _ V2 Sep2 T2) as Lk2.
  assert (C2 : chain maxp cum (filter (fun p => negb (named_in gone (filename p))) fs) p anc).
  { eapply chain_weaken; [exact C|]. intros q Q Iq. apply filter_In. split; [assumption|]. destruct (Stay q Q) as [_ G]. now rewrite G. }
  pose proof (chain_ancestors maxp cum _ h2 p anc Lk2 V2 Vp (Small p Ip) C2) as Ea2.
  unfold load_history_file. cbn [s_dir]. rewrite Ch2. unfold HistModel.load, bindM, ret. rewrite An. cbn [ok_or]. rewrite Ea2.
  unfold apply_items_for_load in *. cbn [s_cache s_dir] in *. inversion H as [[E1 E2]]. destruct (get_cached_item doc op src c (map filename anc)) as [[root rest]| |] eqn:G; try discriminate.
  cbn [bind] in E1 |- *. rewrite apply_items_removed.
  - rewrite E1. unfold set_cur. cbn [s_dir s_cache]. unfold bindM, ret, set_cur in H2. inversion H2; subst. reflexivity.
  - apply cached_rest in G. rewrite Forall_forall. intros name Nm. apply G in Nm. apply in_map_iff in Nm as (q & <- & Q). now apply Stay.
Qed.

End Load.

(** ** Nothing else is kept *)

Section Minimal.
Variable h : tree.
Hypothesis T : tree_ok [] h.
Hypothesis Lk : looks h fs.
Hypothesis Fl : forall q, In q (flatten h) <-> In q fs.
Notation R := (remover_from maxp cum h).
Notation prev_pos := (prev_pos maxp cum).
Let V : Forall valid_props fs := proj1 (proj2 (proj2 Fo)).

Definition near (anc : list props) (q : props) : Prop :=
  In q anc \/
  (cum = true /\ exists a, In a anc /\ S (phase a) = maxp /\ p_control q = p_control a /\
     order_base q = order_base a /\ phase q = phase a /\ order_last q < order_last a /\ (p_prev q = p_prev a \/ phase a = 0%nat)).

Lemma chain_prev p0 anc a q : chain maxp cum fs p0 anc -> In a anc -> prev_pos a = Some (position q) -> In q fs -> In q anc.
Proof.
  induction 1 as [p H|p b l H I C IH]; intros Ia P Iq.
  - destruct Ia as [->|[]]. congruence.
  - apply in_app_or in Ia as [Ia|[->|[]]]; [apply in_or_app; left; auto|]. assert (q = b) by (apply (position_inj fs); auto; congruence). subst b.
    destruct (chain_last _ _ _ _ _ C) as [l' ->]. apply in_or_app. left. apply in_or_app. right. now left.
Qed.

Lemma cue_path_file c it p : cue_item R c = Some it -> r_prop it = Some p -> In p fs /\ position p = cue_path c /\ (cum = false -> r_cumulative it = false) /\
    (r_cumulative it = true -> phase p = maxp \/ S (phase p) = maxp) /\ (phase p = maxp -> r_cumulative it = cum).
Proof.
  intros A B. pose proof (cue_sound _ _ _ T _ _ A) as S. rewrite B in S. symmetry in S. apply (item_get_flatten [] h T) in S as [I P]. cbn [app] in P. apply Fl in I.
  split; [assumption|]. split; [assumption|]. pose proof (cue_order_some _ _ _ _ _ A) as N.
  destruct (cue_file maxp cum h fs T Lk V Fl Small c p I (eq_sym P) N) as (it' & A' & B' & X). rewrite A in A'. apply Some_inj in A'. now subst it'.
Qed.

Lemma sibling_facts p q : In p fs -> position q = p_control p :: order_base p ++ [order_last p - 1] ->
  p_control q = p_control p /\ order_base q = order_base p /\ order_last q = order_last p - 1 /\ phase q = phase p.
Proof.
  intros I E. assert (Oq : p_order q = order_base p ++ [order_last p - 1]) by (unfold position in E; congruence). split; [unfold position in E; congruence|].
  split; [unfold order_base at 1; rewrite Oq; apply removelast_last|]. split; [unfold order_last at 1; rewrite Oq; apply last_last|].
  destruct (order_length p) as [A B]; [apply (vn fs V p I)|]. unfold phase at 1. rewrite Oq, app_length. cbn [length]. lia.
Qed.

Lemma near_next p0 anc p it c q : chain maxp cum fs p0 anc -> (forall x, In x anc -> In x fs) -> near anc p -> In p fs ->
  (cum = false -> r_cumulative it = false) -> (r_cumulative it = true -> phase p = maxp \/ S (phase p) = maxp) -> (phase p = maxp -> r_cumulative it = cum) ->
  next_cue it p = Some c -> In q fs -> cue_path c = position q -> near anc q.
Proof.
  intros C Anc Nr Ip C0 C1 C2 Nx Iq Eq. pose proof (order_last_nonneg maxp h fs V Fl Small p Ip) as L0. unfold next_cue in Nx. destruct (order_length p (vn fs V p Ip)) as [A1 A2].
  destruct (r_cumulative it && negb (order_last p =? 0)) eqn:B.
  - apply Some_inj in Nx. subst c. apply andb_prop in B as [B1 B2]. apply negb_true_iff in B2. apply Z.eqb_neq in B2.
    assert (Cu : cum = true) by (destruct cum; [reflexivity|]; rewrite C0 in B1 by reflexivity; discriminate).
    unfold cue_path, cue_order in Eq. cbn [c_ctl c_order c_last] in Eq. destruct (sibling_facts p q Ip (eq_sym Eq)) as (Q1 & Q2 & Q3 & Q4).
    destruct (Reg Cu) as (R1 & R2 & R3). destruct (C1 B1) as [Ph|Ph].
    + (* last phase *) destruct Nr as [Ia|(_ & a & _ & Pa & _ & _ & Pp & _)]; [|lia]. left. apply (chain_prev p0 anc p q C Ia); [|assumption].
      unfold ChainProofs.prev_pos. rewrite Ph, Nat.eqb_refl, Cu. cbn [andb]. destruct (Z.ltb_spec 0 (order_last p)); [|lia]. rewrite (R2 p Ip Ph) by lia. congruence.
    + right. split; [exact Cu|]. assert (Pv : p_prev q = p_prev p \/ phase p = 0%nat).
      { destruct (Nat.eq_dec (phase p) 0) as [?|Nz]; [now right|left]. destruct (R3 p Ip Ph) as (q' & Iq' & Eq' & Pq'); [lia|lia|]. assert (q' = q) by (apply (position_inj fs); auto; congruence). now subst q'. }
      destruct Nr as [Ia|(_ & a & Ia & Pa & N1 & N2 & N3 & N4 & N5)].
      * exists p. repeat split; auto; try congruence. lia.
      * exists a. repeat split; auto; try congruence; [lia|]. destruct Pv as [Pv|Pv]; [|right; congruence]. destruct N5 as [N5|N5]; [left; congruence|now right].
  - destruct (Nat.eqb_spec (length (p_order p)) 1) as [L1|L1]; [discriminate|]. cbn [negb] in Nx. apply Some_inj in Nx. subst c. unfold cue_path, cue_order in Eq. cbn [c_ctl c_order c_last] in Eq.
    rewrite app_nil_r in Eq. left. destruct Nr as [Ia|(Cu & a & Ia & Pa & N1 & N2 & N3 & N4 & N5)].
    + apply (chain_prev p0 anc p q C Ia); [|assumption]. unfold ChainProofs.prev_pos.
      assert (X : (phase p =? maxp)%nat && cum && (0 <? order_last p) = false).
      { destruct (Nat.eqb_spec (phase p) maxp) as [Ph|?]; [|reflexivity]. rewrite (C2 Ph) in B. destruct cum; [|reflexivity]. cbn [andb] in *. apply negb_false_iff, Z.eqb_eq in B. rewrite B. reflexivity. }
      rewrite X. destruct (Nat.leb_spec 2 (length (p_order p))); [congruence|lia].
    + apply (chain_prev p0 anc a q C Ia); [|assumption]. destruct (order_length a (vn fs V a (Anc a Ia))) as [B1 B2]. unfold ChainProofs.prev_pos.
      destruct (Nat.eqb_spec (phase a) maxp); [lia|]. cbn [andb]. destruct (Nat.leb_spec 2 (length (p_order a))); [|lia].
      destruct N5 as [N5|N5]; [congruence|lia].
Qed.

Lemma keep_loop_near p0 anc : chain maxp cum fs p0 anc -> (forall x, In x anc -> In x fs) -> forall f K c K', keep_loop f R K c = Ok K' ->
  (forall q, In q fs -> cue_path c = position q -> near anc q) -> forall x, In x K' -> In x K \/ exists q, In q fs /\ position q = x /\ near anc q.
Proof.
  intros C Anc. induction f as [|f IH]; intros K c K' H G x X; [discriminate|]. cbn [keep_loop] in H. destruct (cue_item R c) as [it|] eqn:E; [|apply Ok_inj in H; subst; now left].
  unfold item_keep in H. destruct (r_prop it) as [p|] eqn:Ep; [|apply Ok_inj in H; subst; now left]. destruct (is_kept K (cue_path c)); [apply Ok_inj in H; subst; now left|].
  destruct (cue_path_file c it p E Ep) as (Ip & Pp & C0 & C1 & C2). pose proof (G p Ip (eq_sym Pp)) as Np.
  assert (Own : In x (cue_path c :: K) -> In x K \/ exists q, In q fs /\ position q = x /\ near anc q). { intros [<-|Y]; [right; eauto|now left]. }
  destruct (next_cue it p) as [c'|] eqn:Nx; [|apply Ok_inj in H; subst; auto]. destruct (IH _ _ _ H) with (x := x) as [Y|Y]; auto.
  intros q Iq Eq. eapply near_next; eauto.
Qed.

Lemma keep_each_near l : (forall p, In p l -> In p fs) -> (forall p, In p l -> exists anc, chain maxp cum fs p anc) -> forall K K', keep_each R K l = Ok K' ->
  forall x, In x K' -> In x K \/ exists q p anc, In q fs /\ position q = x /\ In p l /\ chain maxp cum fs p anc /\ near anc q.
Proof.
  induction l as [|p l IH]; intros Il Hc K K' H x X; cbn [keep_each] in H; [apply Ok_inj in H; subst; now left|]. apply bind_ok in H as (K1 & H1 & H2).
  destruct (IH (fun q Iq => Il q (or_intror Iq)) (fun q Iq => Hc q (or_intror Iq)) K1 K' H2 x X) as [Y|(q & p' & anc & A & B & C & D)]; [|right; exists q, p', anc; repeat split; auto; try apply D; now right].
  destruct (Hc p (or_introl eq_refl)) as [anc Ca]. assert (Ip : In p fs) by (apply Il; now left).
  unfold keep in H1. apply (keep_loop_near p anc Ca) with (x := x) in H1 as [Z|(q & A & B & C)]; auto.
  - right. exists q, p, anc. repeat split; auto. now left.
  - intros y Iy. destruct (chain_in _ _ _ _ _ _ Ca Iy) as [->|?]; auto.
  - intros q Iq Eq. unfold cue_path, cue_order in Eq. cbn [c_ctl c_order c_last] in Eq. rewrite app_nil_r in Eq. assert (q = p) by (apply (position_inj fs); auto). subst q. left.
    destruct (chain_last _ _ _ _ _ Ca) as [l' ->]. apply in_or_app. right. now left.
Qed.

End Minimal.

Lemma removed_rest names h n l q : Permutation names (map fst dir) -> create_file_history names = Ok h -> get_removable_old_items maxp cum h n = Ok l ->
  (forall p, In p (lastn n (list_files h)) -> exists anc, create_ancestors h p maxp cum = Ok anc) ->
  In q fs -> (forall p anc, In p (lastn n (list_files h)) -> create_ancestors h p maxp cum = Ok anc -> ~ kept_for maxp cum anc q) -> In q l.
Proof.
  intros Pn Ch E Ha Iq Nk. pose proof Fo as (_ & _ & V & _). destruct (folder_h names Pn) as (h1 & Ch1 & T & It & Lk & Fl & Pl & Cl). rewrite Ch in Ch1. apply Ok_inj in Ch1. subst h1.
  destruct (removable_list maxp cum h n T It) as (l' & K & E' & El & Ek & _). rewrite E in E'. apply Ok_inj in E'. subst l'.
  assert (Lf : forall p, In p (lastn n (list_files h)) -> In p fs).
  { intros p J. eapply Permutation_in; [exact Pl|]. unfold lastn in J. rewrite <- (firstn_skipn (length (list_files h) - n) (list_files h)). apply in_or_app. now right. }
  assert (Vp : forall p, In p fs -> valid_props p) by (rewrite Forall_forall in V; auto).
  destruct (in_dec path_dec (position q) K) as [Kq|Nq].
  - exfalso. destruct (keep_each_near h T Lk Fl _ Lf) with (K := @nil (list Z)) (K' := K) (x := position q) as [[]|(q' & p & anc & A & B & C & D & N)]; auto.
    + intros p J. destruct (Ha p J) as [anc Ea]. exists anc. eapply ancestors_chain; try eassumption; auto.
    + assert (q' = q) by (apply (position_inj fs); auto). subst q'. apply (Nk p anc C); [apply (chain_ancestors maxp cum fs h p anc Lk V); auto|].
      destruct N as [N|(Cu & a & N1 & N2 & N3 & N4 & N5 & N6 & _)]; [now left|right]. split; [assumption|]. exists a. repeat split; auto.
  - rewrite El. destruct (cue_at fs V q Iq) as (cu & Ec & Nc). destruct (cue_file maxp cum h fs T Lk V Fl Small cu q Iq Ec Nc) as (it & A & B & _).
    apply (get_removable_complete maxp cum h K cu it q A B). now rewrite Ec.
Qed.

End Fold.
