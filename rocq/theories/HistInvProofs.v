(** The invariant of a history: every file gives the document saved into it, and
    the cache holds documents of files. *)
From Verif Require Import Base CompactionModel StringCompactionModel StringCompactionProofs FileNameModel FileNameSpec FileNameProofs
  DocModel DiffProofs PhaseModel PhaseSpec PhaseProofs TreeModel TreeSpec TreeProofs HistModel HistSpec HistProofs ChainProofs.

Lemma sorted_filter {A} (f : Z * A -> bool) m : sorted m -> sorted (filter f m).
Proof.
  unfold sorted. induction m as [|e m IH]; intros S; [assumption|]. cbn [keys map] in S. inversion S as [|? ? S' F]; subst. cbn [filter].
  destruct (f e); [|auto]. cbn [keys map]. constructor; [auto|]. apply Forall_forall. intros k I. apply in_map_iff in I as (e' & <- & I).
  apply filter_In in I as [I _]. rewrite Forall_forall in F. apply F. now apply in_map.
Qed.

Lemma fst_functional {A B} (l : list (A * B)) a b c : NoDup (map fst l) -> In (a, b) l -> In (a, c) l -> b = c.
Proof.
  induction l as [|[x y] l IH]; intros N I J; [destruct I|]. cbn [map fst] in N. inversion N as [|? ? N1 N2]; subst.
  destruct I as [I|I]; destruct J as [J|J]; try (inversion I; subst); try (inversion J; subst); auto;
    exfalso; apply N1; eapply (in_map fst) in I || eapply (in_map fst) in J; eassumption.
Qed.

Lemma in_fst {A B} (l : list (A * B)) a : In a (map fst l) -> exists b, In (a, b) l.
Proof. intros I. apply in_map_iff in I as ([a' b] & <- & I). eauto. Qed.
Lemma fst_in {A B} (l : list (A * B)) a b : In (a, b) l -> In a (map fst l).
Proof. intros I. apply (in_map fst) in I. exact I. Qed.

Lemma kept_length saves d : kept saves d -> Z.of_nat (length d) <= zlen saves.
Proof.
  induction 1 as [size S0|saves d j size d' K IH J S0 P]; [cbn; lia|]. rewrite zlen_app. change (zlen [(j, size)]) with 1.
  unfold pop_and_push in P. apply push_ok in P as [P _]. rewrite firstn_length in P. lia.
Qed.

Section Inv.
Context {doc : Type}.
Variable mkdiff : doc -> doc -> res (list Z).
Variable appdiff : doc -> list Z -> res doc.
Variable same later : doc -> doc -> Prop.
Hypothesis Rep : reproduces mkdiff appdiff same later.
Variable src : doc.
Variable op : options.
Hypothesis Built : exists b, build b = Ok op.
Variable junk : list (list Z).

Notation st := (st doc).
Notation maxp := (max_phase op).
Notation cum := (is_cumulative op).
Notation chain := (chain maxp cum).
Notation prev_pos := (prev_pos maxp cum).
Notation hist := (list (props * doc)).

Local Notation same_refl := (same_refl _ _ _ _ Rep).
Local Notation same_sym := (same_sym _ _ _ _ Rep).
Local Notation same_trans := (same_trans _ _ _ _ Rep).
Local Notation later_same := (later_same _ _ _ _ Rep).
Local Notation later_trans := (later_trans _ _ _ _ Rep).
Local Notation difference := (difference _ _ _ _ Rep).

(** the document a file is a difference to *)
Definition pre (F : hist) (p : props) (a : doc) : Prop :=
  match prev_pos p with
  | None => a = src
  | Some s => exists b, position b = s /\ In (b, a) F
  end.

(** the contents of a file *)
Definition stored (n : nat) (dir : hmap (list Z)) (F : hist) (p : props) (d : doc) : Prop :=
  exists pd header v saves a,
    hget (filename p) dir = Some (header ++ v) /\ encode (encode_pdata pd) = Ok header /\
    length pd = length (p_order p) /\ recorded op saves pd /\ zlen saves <= Z.of_nat n /\ total saves <= Z.of_nat n * 2 ^ 36 /\
    pre F p a /\ later a d /\ forall a', same a' a -> exists r, appdiff a' v = Ok r /\ same r d.

Definition cache_ok (c : btree (list Z * doc)) (F : hist) : Prop :=
  sorted c /\ forall i name x, In (i, (name, x)) c ->
    exists p, valid_props p /\ filename p = name /\ i = Z.of_nat (phase p) /\ (phase p <= maxp)%nat /\ forall d, In (p, d) F -> same x d.

Record Inv (n : nat) (s : st) (F : hist) : Prop := {
  i_folder : folder (s_dir doc s) (map fst F) junk;
  i_sorted : chronological (map fst F);
  i_small : forall p, In p (map fst F) -> (phase p <= maxp)%nat /\ p_control p < Z.of_nat n /\ Forall (fun x => x < Z.of_nat n) (p_order p);
  i_file : forall p d, In (p, d) F -> stored n (s_dir doc s) F p d;
  i_chain : forall p, In p (map fst F) -> exists l, chain (map fst F) p l;
  i_prefix : forall p q l r, In p (map fst F) -> In q (map fst F) -> r <> [] -> position q = position p ++ r ->
    chain (map fst F) q l -> In p l;
  i_cache : cache_ok (s_cache doc s) F;
  i_cur : forall id base, s_cur doc s = Some (id, base) -> In base (map fst F) }.

(** ** Basic consequences *)

Lemma chronological_separate l : chronological l -> separate l.
Proof.
  unfold chronological, separate. induction 1 as [|x l C IH Fo]; [constructor|]. cbn [map]. constructor; [|assumption].
  intros I. apply in_map_iff in I as (y & E & I). rewrite Forall_forall in Fo. apply Fo in I. rewrite E in I. apply (earlier_irrefl _ I).
Qed.

Section Facts.
Variables (n : nat) (s : st) (F : hist).
Hypothesis I : Inv n s F.
Notation fs := (map fst F).

Lemma inv_valid p : In p fs -> valid_props p.
Proof. intros J. destruct (i_folder _ _ _ I) as (_ & _ & V & _). rewrite Forall_forall in V. auto. Qed.
Lemma inv_all_valid : Forall valid_props fs.
Proof. apply Forall_forall. apply inv_valid. Qed.
Lemma inv_order p : In p fs -> p_order p <> [].
Proof. intros J. apply (inv_valid p J). Qed.
Lemma inv_separate : separate fs.
Proof. apply chronological_separate, (i_sorted _ _ _ I). Qed.
Lemma inv_nodup : NoDup fs.
Proof. apply chronological_nodup, (i_sorted _ _ _ I). Qed.
Lemma inv_fun p d d' : In (p, d) F -> In (p, d') F -> d = d'.
Proof. apply fst_functional, inv_nodup. Qed.

Lemma inv_tree names : Permutation names (map fst (s_dir doc s)) ->
  exists h, create_file_history names = Ok h /\ tree_of h fs /\ looks h fs.
Proof.
  intros P. destruct (folder_tree _ _ _ _ (i_folder _ _ _ I) P) as (h & C & T). exists h. split; [assumption|]. split; [assumption|].
  apply tree_looks; auto using inv_all_valid, inv_separate.
Qed.

Lemma inv_ancestors h p l : looks h fs -> In p fs -> chain fs p l -> create_ancestors h p maxp cum = Ok l.
Proof. intros L J C. apply (chain_ancestors maxp cum fs h p l L inv_all_valid (inv_valid p J)); [apply (i_small _ _ _ I p J)|assumption]. Qed.

Lemma chain_all p l x : In p fs -> chain fs p l -> In x l -> In x fs.
Proof. intros J C X. destruct (chain_in _ _ _ _ _ _ C X) as [->|?]; auto. Qed.

Lemma pre_next b p a : In b fs -> prev_pos p = Some (position b) -> pre F p a -> In (b, a) F.
Proof.
  intros J P H. unfold pre in H. rewrite P in H. destruct H as (b' & E & K).
  assert (b' = b); [|congruence]. apply (position_inj fs); auto using inv_separate. eapply fst_in, K.
Qed.

(** the header of a file is read back *)
Lemma header_read k saves pd header v : Z.of_nat k < 100000000 -> recorded op saves pd -> zlen saves <= Z.of_nat k -> total saves <= Z.of_nat k * 2 ^ 36 ->
  encode (encode_pdata pd) = Ok header ->
  moderate saves /\ exists vals, decode (header ++ v) = Ok (vals, zlen header, v) /\ decode_pdata vals = Ok pd.
Proof.
  intros K R S1 S2 E. destruct Built as [b B]. destruct (recorded_kept _ _ _ _ B R) as [Ke _].
  assert (M : moderate saves) by (split; lia). split; [assumption|].
  pose proof (kept_length _ _ Ke) as L. destruct (pdata_file pd v (kept_in_range _ _ Ke M)) as (bytes & E' & _ & vals & D & Dp); [unfold zlen in *; lia|].
  rewrite E in E'. apply Ok_inj in E'. subst bytes. eauto.
Qed.

Hypothesis Small : Z.of_nat n < 100000000.

(** one file *)
Lemma stored_apply p d : In (p, d) F -> exists a, pre F p a /\ later a d /\
  forall a', same a' a -> exists r, apply_item doc appdiff (s_dir doc s) a' (filename p) = Ok r /\ same r d.
Proof.
  intros J. destruct (i_file _ _ _ I _ _ J) as (pd & header & v & saves & a & G & E & L & R & S1 & S2 & Pr & La & Ap).
  exists a. split; [assumption|]. split; [assumption|]. intros a' Sa. destruct (Ap a' Sa) as (r & Er & Sr). exists r. split; [|assumption].
  unfold apply_item, open_diff_file, open. rewrite G. cbn [ok_or bind].
  destruct (header_read n saves pd header v Small R S1 S2 E) as (_ & vals & D & _). rewrite D. cbn [bind]. exact Er.
Qed.

(** documents along a chain *)
Lemma chain_later p l q dp dq : chain fs p l -> In p fs -> In q l -> In (p, dp) F -> In (q, dq) F -> q = p \/ later dq dp.
Proof.
  intros C. revert dp. induction C as [p H|p b l H J C IH]; intros dp Jp Q Ip Iq.
  - destruct Q as [->|[]]. now left.
  - apply in_app_or in Q as [Q|[->|[]]]; [right|now left]. destruct (stored_apply p dp Ip) as (a & Pr & La & _).
    pose proof (pre_next b p a J H Pr) as Ib. destruct (IH a J Q Ib Iq) as [->|L].
    + rewrite (inv_fun _ _ _ Iq Ib). assumption.
    + eapply later_trans; eassumption.
Qed.

(** the document after the files [l1] *)
Definition at_ (l1 : list props) (root : doc) : Prop :=
  (l1 = [] /\ same root src) \/ exists l0 q dq, l1 = l0 ++ [q] /\ In (q, dq) F /\ same root dq.

Lemma at_same l1 root root' : same root' root -> at_ l1 root -> at_ l1 root'.
Proof.
  intros S [[-> R]|(l0 & q & dq & -> & J & R)]; [left|right].
  - split; [reflexivity|]. eapply same_trans; eassumption.
  - exists l0, q, dq. split; [reflexivity|]. split; [assumption|]. eapply same_trans; eassumption.
Qed.

Lemma at_step p l l1 x l2 root : In p fs -> chain fs p l -> l = l1 ++ x :: l2 -> at_ l1 root ->
  exists r dx, apply_item doc appdiff (s_dir doc s) root (filename x) = Ok r /\ In (x, dx) F /\ same r dx.
Proof.
  intros J C E A. assert (X : In x fs) by (eapply chain_all; [exact J|exact C|rewrite E; apply in_or_app; right; now left]).
  destruct (in_fst _ _ X) as [dx Ix]. destruct (stored_apply x dx Ix) as (a & Pr & _ & Ap).
  assert (Sa : same root a).
  { destruct A as [[-> R]|(l0 & q & dq & -> & Jq & R)].
    - cbn [app] in E. pose proof (chain_first _ _ _ _ _ C _ _ E) as N. unfold pre in Pr. rewrite N in Pr. now subst.
    - rewrite <- app_assoc in E. cbn [app] in E. destruct (chain_next _ _ _ _ _ C _ _ _ _ E) as [N K]. pose proof (pre_next q x a K N Pr) as Ia.
      now rewrite <- (inv_fun _ _ _ Jq Ia). }
  destruct (Ap root Sa) as (r & Er & Sr). exists r, dx. auto.
Qed.

Lemma apply_from p d l : In (p, d) F -> chain fs p l -> forall l2 l1 root, l = l1 ++ l2 -> at_ l1 root ->
  exists r, apply_items doc appdiff (s_dir doc s) root (map filename l2) = Ok r /\ same r d.
Proof.
  intros Ip C. pose proof (fst_in _ _ _ Ip) as J. induction l2 as [|x l2 IH]; intros l1 root E A.
  - cbn [map apply_items]. rewrite app_nil_r in E. subst l1. exists root. split; [reflexivity|].
    destruct (chain_last _ _ _ _ _ C) as [l' E]. destruct A as [[N _]|(l0 & q & dq & Eq & Jq & R)]; [rewrite N in E; destruct l'; discriminate|].
    rewrite E in Eq. apply app_inj_tail in Eq as [_ <-]. now rewrite <- (inv_fun _ _ _ Jq Ip).
  - cbn [map apply_items]. destruct (at_step p l l1 x l2 root J C E A) as (r & dx & Er & Ix & Sr). rewrite Er. cbn [bind].
    apply (IH (l1 ++ [x])); [rewrite <- app_assoc; exact E|]. right. exists l1, x, dx. auto.
Qed.

(** ** The cache *)

Lemma cache_entry c i name x q dq : cache_ok c F -> In (i, (name, x)) c -> filename q = name -> In (q, dq) F ->
  i = Z.of_nat (phase q) /\ same x dq.
Proof.
  intros [_ K] J E Iq. destruct (K _ _ _ J) as (p & Vp & Ep & -> & _ & S). assert (p = q).
  { apply filename_inj; [assumption|apply inv_valid; eapply fst_in, Iq|congruence]. }
  subst. auto.
Qed.

Lemma scan_ok c l : cache_ok c F -> (forall x, In x l -> In x fs) -> forall k i, scan_cache doc c (map filename l) k = Some i ->
  exists m q x, i = Z.of_nat m /\ (m < k)%nat /\ nth_error l m = Some q /\ bt_get i c = Some (filename q, x).
Proof.
  intros Kc A. induction k as [|k IH]; intros i H; cbn [scan_cache] in H; [discriminate|].
  assert (R : scan_cache doc c (map filename l) k = Some i -> exists m q x, i = Z.of_nat m /\ (m < S k)%nat /\ nth_error l m = Some q /\ bt_get i c = Some (filename q, x)).
  { intros H'. destruct (IH i H') as (m & q & x & ? & ? & ? & ?). exists m, q, x. auto. }
  destruct (bt_get (Z.of_nat k) c) as [[path x]|] eqn:G; [|auto].
  destruct (nth_error (map filename l) k) as [path'|] eqn:N; [|auto]. destruct (eqb_bytes path path') eqn:E; [|auto].
  apply eqb_bytes_eq in E. subst path'. apply Some_inj in H. subst i. rewrite nth_error_map in N. destruct (nth_error l k) as [q|] eqn:Nq; [|discriminate].
  cbn [option_map] in N. apply Some_inj in N. subst path. exists k, q, x. auto.
Qed.

Lemma cached c p d l : cache_ok c F -> In (p, d) F -> chain fs p l -> exists root l1 l2,
  get_cached_item doc op src c (map filename l) = Ok (root, map filename l2) /\ l = l1 ++ l2 /\ at_ l1 root /\ (l2 = [] \/ (length l1 <= maxp)%nat).
Proof.
  intros Kc Ip C. pose proof (fst_in _ _ _ Ip) as J. pose proof (inv_order p J) as N. destruct (i_small _ _ _ I p J) as [Ph _].
  assert (None_ : exists root l1 l2, Ok (src, map filename l) = Ok (root, map filename l2) /\ l = l1 ++ l2 /\ at_ l1 root /\ (l2 = [] \/ (length l1 <= maxp)%nat)).
  { exists src, [], l. repeat split; [left; split; [reflexivity|apply same_refl]|right; cbn [length]; lia]. }
  unfold get_cached_item, get_phase_cache. destruct (bt_last c) as [[index [path x]]|] eqn:B; [|exact None_].
  destruct (chain_last _ _ _ _ _ C) as [l' El]. destruct (chain_phase _ _ _ _ _ inv_all_valid C N Ph) as [Pl Pi].
  assert (Er : rev (map filename l) = filename p :: rev (map filename l')) by (rewrite El, map_app, rev_app_distr; reflexivity).
  rewrite Er. destruct (eqb_bytes path (filename p)) eqn:E.
  - apply eqb_bytes_eq in E. subst path. destruct (sorted_last c index (filename p, x) (proj1 Kc) B) as [Ic _].
    rewrite (in_bt_get _ _ _ (proj1 Kc) Ic). destruct (cache_entry c _ _ _ p d Kc Ic eq_refl Ip) as [Ei Sx].
    exists x, l, []. split; [|split; [now rewrite app_nil_r|split; [right; exists l', p, d; auto|now left]]].
    f_equal. f_equal. destruct (Z.eqb_spec index (Z.of_nat maxp)) as [Q|Q]; [reflexivity|]. cbn [map].
    apply skipn_all2. rewrite map_length, Ei, Nat2Z.id. lia.
  - destruct (scan_cache doc c (map filename l) maxp) as [i|] eqn:Sc; [|exact None_].
    destruct (scan_ok c l Kc (fun x X => chain_all p l x J C X) maxp i Sc) as (m & q & y & -> & Lm & Nq & G). rewrite G.
    assert (Jq : In q fs) by (eapply chain_all; [exact J|exact C|eapply nth_error_In, Nq]). destruct (in_fst _ _ Jq) as [dq Iq].
    apply bt_get_in in G. destruct (cache_entry c _ _ _ q dq Kc G eq_refl Iq) as [_ Sy].
    apply nth_error_split in Nq as (l1 & l2 & E2 & Lm'). exists y, (l1 ++ [q]), l2. split; [|split; [rewrite <- app_assoc; exact E2|split]].
    + f_equal. f_equal. destruct (Z.eqb_spec (Z.of_nat m) (Z.of_nat maxp)); [lia|]. rewrite Nat2Z.id, E2, map_app. cbn [map].
      rewrite skipn_app, map_length, Lm'. rewrite skipn_all2 by (rewrite map_length; lia). replace (S m - m)%nat with 1%nat by lia. reflexivity.
    + right. exists l1, q, dq. auto.
    + right. rewrite app_length. cbn [length]. lia.
Qed.

Lemma cache_filter c f : cache_ok c F -> cache_ok (filter f c) F.
Proof. intros [S K]. split; [now apply sorted_filter|]. intros i name x J. apply filter_In in J as [J _]. eauto. Qed.

Lemma cache_insert c q x dq : cache_ok c F -> In (q, dq) F -> same x dq ->
  cache_ok (bt_insert (Z.of_nat (phase q)) (filename q, x) c) F.
Proof.
  intros [S K] J Sx. split; [now apply bt_insert_sorted|]. intros i name y H. apply in_bt_insert in H as [[-> E]|H]; [|eauto].
  inversion E; subst. pose proof (fst_in _ _ _ J) as Jq. exists q. split; [now apply inv_valid|]. split; [reflexivity|]. split; [reflexivity|].
  split; [apply (i_small _ _ _ I q Jq)|]. intros d Id. now rewrite <- (inv_fun _ _ _ J Id).
Qed.

Lemma caching p d l : In (p, d) F -> chain fs p l -> forall l2 l1 root i s1, l = l1 ++ l2 -> at_ l1 root ->
  (l2 = [] \/ i = Nat.min (length l1) maxp) -> s_dir doc s1 = s_dir doc s -> cache_ok (s_cache doc s1) F ->
  exists r s2, apply_caching doc appdiff op root i (map filename l2) s1 = (Ok r, s2) /\ same r d /\
    s_dir doc s2 = s_dir doc s1 /\ s_cur doc s2 = s_cur doc s1 /\ cache_ok (s_cache doc s2) F.
Proof.
  intros Ip C. pose proof (fst_in _ _ _ Ip) as J. pose proof (inv_order p J) as N. destruct (i_small _ _ _ I p J) as [Ph _].
  destruct (chain_phase _ _ _ _ _ inv_all_valid C N Ph) as [_ Pi].
  induction l2 as [|x l2 IH]; intros l1 root i s1 E A Hi D K.
  - cbn [map apply_caching]. unfold ret. exists root, s1. split; [reflexivity|]. rewrite app_nil_r in E. subst l1.
    destruct (apply_from p d l Ip C [] l root) as (r & Er & Sr); [now rewrite app_nil_r|assumption|]. cbn [map apply_items] in Er. apply Ok_inj in Er. subst r. auto.
  - destruct Hi as [?|Hi]; [discriminate|]. cbn [map apply_caching]. rewrite D.
    destruct (at_step p l l1 x l2 root J C E A) as (r & dx & Er & Ix & Sr). rewrite Er.
    assert (Nx : nth_error l (length l1) = Some x) by (rewrite E, nth_error_app2, Nat.sub_diag by lia; reflexivity).
    assert (E' : l = (l1 ++ [x]) ++ l2) by (rewrite <- app_assoc; exact E).
    assert (A' : at_ (l1 ++ [x]) r) by (right; exists l1, x, dx; auto).
    destruct (Nat.ltb_spec i maxp) as [Q|Q].
    + destruct (IH (l1 ++ [x]) r (S i) (St doc (s_dir doc s) (bt_insert (Z.of_nat i) (filename x, r) (s_cache doc s1)) (s_cur doc s1)) E' A') as (r' & s2 & Ec & Sr' & D' & C' & K').
      * right. rewrite app_length. cbn [length]. lia.
      * reflexivity.
      * cbn [s_cache]. replace i with (phase x) by (rewrite (Pi _ _ Nx); lia). eapply cache_insert; eassumption.
      * exists r', s2. cbn [s_dir s_cur] in *. auto.
    + destruct (IH (l1 ++ [x]) r i s1 E' A') as (r' & s2 & Ec & Sr' & D' & C' & K'); auto.
      * right. rewrite app_length. cbn [length]. lia.
      * exists r', s2. rewrite <- D. auto.
Qed.

(** the documents a save may start from *)
Definition deps_ok (deps : list props) (a : doc) : Prop :=
  (deps = [] /\ a = src) \/ exists b, chain fs b deps /\ In (b, a) F.

Lemma save_items s1 deps a : deps_ok deps a -> s_dir doc s1 = s_dir doc s -> cache_ok (s_cache doc s1) F ->
  exists r s2, apply_items_for_save doc appdiff src op (map filename deps) s1 = (Ok r, s2) /\ same r a /\
    s_dir doc s2 = s_dir doc s1 /\ s_cur doc s2 = s_cur doc s1 /\ cache_ok (s_cache doc s2) F.
Proof.
  intros H D K. unfold apply_items_for_save. destruct H as [[-> ->]|(b & C & Ib)].
  - cbn [map]. unfold get_cached_item, get_phase_cache. cbn [rev].
    replace (match bt_last (s_cache doc s1) with Some (index, (path, _)) => None | None => None end) with (@None Z) by (destruct (bt_last (s_cache doc s1)) as [[? [? ?]]|]; reflexivity).
    cbn [length Nat.sub apply_caching]. unfold ret. eexists _, _. split; [reflexivity|]. cbn [s_dir s_cur s_cache]. repeat split; auto using same_refl; now apply cache_filter.
  - destruct (cached _ b a deps K Ib C) as (root & l1 & l2 & G & E & A & L). rewrite G.
    destruct (caching b a deps Ib C l2 l1 root (length (map filename deps) - length (map filename l2))%nat
      (St doc (s_dir doc s1) (remove_upper_phase_cache doc (s_cache doc s1) (length (map filename deps) - length (map filename l2))) (s_cur doc s1)) E A)
      as (r & s2 & Ec & Sr & D2 & C2 & K2).
    + destruct L as [->|L]; [now left|right]. rewrite !map_length, E, app_length. lia.
    + exact D.
    + cbn [s_cache]. now apply cache_filter.
    + exists r, s2. auto.
Qed.

Lemma load_items p d l root0 : In (p, d) F -> chain fs p l -> root0 = src ->
  exists r, apply_items_for_load doc appdiff op root0 (map filename l) s = (Ok r, s) /\ same r d.
Proof.
  intros Ip C ->. unfold apply_items_for_load. destruct (cached _ p d l (i_cache _ _ _ I) Ip C) as (root & l1 & l2 & G & E & A & _). rewrite G. cbn [bind].
  destruct (apply_from p d l Ip C l2 l1 root E A) as (r & Er & Sr). rewrite Er. eauto.
Qed.

(** ** Loading *)
Lemma load_ok id p d : In (p, d) F ->
  exists r, load_history_file doc appdiff src op id p s = (Ok r, St doc (s_dir doc s) (s_cache doc s) (Some (id, p))) /\ same r d.
Proof.
  intros Ip. pose proof (fst_in _ _ _ Ip) as J. destruct (inv_tree _ (Permutation_refl _)) as (h & Ch & _ & Lk). unfold load_history_file. rewrite Ch.
  destruct (i_chain _ _ _ I p J) as [l C]. destruct (load_items p d l src Ip C eq_refl) as (r & E & Sr). exists r. split; [|assumption].
  unfold load, bindM at 1. destruct (i_folder _ _ _ I) as (_ & _ & V & R & _). rewrite Forall_forall in V, R.
  destruct (analyze_name p (V p J)) as [An _]. unfold bindM, ret. rewrite (An (R p J)). cbn [ok_or]. rewrite (inv_ancestors h p l Lk J C), E. reflexivity.
Qed.
End Facts.

(** ** Where a save goes *)

Section Link.
Variables (n : nat) (s : st) (F : hist).
Hypothesis I : Inv n s F.
Hypothesis Small : Z.of_nat (S n) < 100000000.
Notation fs := (map fst F).

Lemma deps_prefix p l l1 z l2 : In p fs -> chain fs p l -> l = l1 ++ z :: l2 ->
  exists a, deps_ok F l1 a /\ ((l1 = [] /\ prev_pos z = None) \/ exists b, chain fs b l1 /\ prev_pos z = Some (position b)).
Proof.
  intros J C E. destruct l1 as [|b l0 _] using rev_ind.
  - exists src. split; [left; auto|]. left. split; [reflexivity|]. eapply chain_first; eassumption.
  - rewrite <- app_assoc in E. cbn [app] in E. destruct (chain_next _ _ _ _ _ C _ _ _ _ E) as [P Jb]. destruct (in_fst _ _ Jb) as [a Ib].
    pose proof (chain_prefix _ _ _ _ _ C _ _ _ E) as Cb. exists a. split; [right; eauto|]. right. eauto.
Qed.

Definition sound_from (from : props) : Prop := cum = true \/ maxp = 0%nat \/ (phase from < maxp)%nat \/ p_prev from = p_control from.

Lemma app_prefix_snoc {A} (q r y : list A) x : r <> [] -> y ++ [x] = q ++ r -> exists r', y = q ++ r'.
Proof.
  intros N E. destruct r as [|z r _] using rev_ind; [congruence|]. rewrite app_assoc in E. apply app_inj_tail in E as [-> _]. eauto.
Qed.

Lemma small_last o : Forall (fun x => x < Z.of_nat n) o -> o <> [] -> inc_last o = Ok (removelast o ++ [last o 0 + 1]) /\
  Forall (fun x => x < Z.of_nat (S n)) (removelast o ++ [last o 0 + 1]).
Proof.
  intros H N. rewrite (app_removelast_last 0 N) in H. apply Forall_app in H as [H1 H2]. inversion H2 as [|? ? L _]; subst. unfold inc_last, u32_inc.
  destruct (Z.ltb_spec (last o 0 + 1) (2 ^ 32)) as [Q|Q]; [|lia]. split; [reflexivity|].
  apply Forall_app. split; [eapply Forall_impl; [|exact H1]; cbv beta; intros; lia|]. constructor; [lia|constructor].
Qed.

Lemma link from l j ctl : In from fs -> chain fs from l -> (j <= maxp)%nat -> ((phase from < maxp)%nat -> j = S (phase from)) ->
  exists deps p a, create_dependencies l j ctl None maxp cum = Ok (deps, p) /\ p_control p = ctl /\
    length (p_order p) = S j /\ Forall (fun x => x < Z.of_nat (S n)) (p_order p) /\
    deps_ok F deps a /\ incl deps l /\
    (sound_from from -> (deps = [] /\ prev_pos p = None) \/ exists b, chain fs b deps /\ prev_pos p = Some (position b)) /\
    (forall q r, In q fs -> r <> [] -> p_control from :: p_order p = position q ++ r -> In q deps).
Proof.
  intros J C Lj Hj. pose proof (inv_order _ _ _ I _ J) as N. destruct (i_small _ _ _ I from J) as (Ph & _ & Sm).
  destruct (chain_phase _ _ _ _ _ (inv_all_valid _ _ _ I) C N Ph) as [Pl Pi]. destruct (order_length from N) as [O1 O2].
  destruct (in_fst _ _ J) as [dfrom Ifrom]. destruct (chain_last _ _ _ _ _ C) as [l' El].
  assert (Vf : valid_props from) by (apply (inv_valid _ _ _ I); assumption).
  assert (X0 : 0 <= order_last from). { destruct Vf as (_ & _ & O & _). rewrite (order_split from N) in O. apply Forall_app in O as [_ O]. inversion O; subst. unfold u32 in *. lia. }
  unfold create_dependencies. destruct l as [|a0 anc] eqn:El0; [destruct l'; discriminate|]. rewrite <- El0 in *.
  assert (La : last l a0 = from) by (rewrite El; apply last_last). rewrite La. clear El0 a0 anc La. cbv zeta.
  assert (L1 : (1 <= length l)%nat) by (rewrite El, app_length; cbn [length]; lia).
  assert (Pre : forall q r y, In q fs -> p_control from :: order_base from = position q ++ r -> y = l -> In q y).
  { intros q r y Jq E ->. apply (i_prefix _ _ _ I q from l (r ++ [order_last from]) Jq J); [intros X; apply app_eq_nil in X as [_ X]; discriminate| |exact C].
    unfold position at 1. rewrite (order_split from N), app_comm_cons, E. now rewrite <- app_assoc. }
  destruct (Nat.ltb_spec (length (p_order from) - 1) maxp) as [Q|Q].
  - (* one phase down *)
    assert (Pf : (phase from < maxp)%nat) by (unfold phase; lia). specialize (Hj Pf). assert (Ll : length l = j) by lia.
    cbn [bind]. unfold props_new. replace (match p_order from ++ [0] with [] => None | _ => _ end) with (Some (Props ctl (p_control from) (p_order from ++ [0]) None))
      by (destruct (p_order from); reflexivity). cbn [ok_or bind].
    assert (D : (if (j =? maxp)%nat && cum then Ok (l, Props ctl (p_control from) (p_order from ++ [0]) None)
      else if (j <=? length l)%nat then Ok (firstn j l, Props ctl (p_control from) (p_order from ++ [0]) None) else Err)
      = Ok (l, Props ctl (p_control from) (p_order from ++ [0]) None)).
    { destruct ((j =? maxp)%nat && cum); [reflexivity|]. destruct (Nat.leb_spec j (length l)); [|lia]. rewrite firstn_all2 by lia. reflexivity. }
    rewrite D. exists l, (Props ctl (p_control from) (p_order from ++ [0]) None), dfrom. cbn [p_control p_order].
    split; [reflexivity|]. split; [reflexivity|]. split; [rewrite app_length; cbn [length]; lia|].
    split; [apply Forall_app; split; [eapply Forall_impl; [|exact Sm]; cbv beta; intros; lia|constructor; [lia|constructor]]|].
    split; [right; eauto|]. split; [apply incl_refl|]. split.
    + intros _. right. exists from. split; [assumption|]. unfold ChainProofs.prev_pos, order_last, order_base, position. cbn [p_order p_prev].
      rewrite last_last, removelast_last. rewrite andb_false_r. rewrite app_length. cbn [length].
      destruct (Nat.leb_spec 2 (length (p_order from) + 1)); [reflexivity|lia].
    + intros q r Jq Nr E. rewrite app_comm_cons in E. apply app_prefix_snoc in E as [r' E]; [|assumption].
      destruct r' as [|y r']; [rewrite app_nil_r in E; assert (q = from) by (apply (position_inj fs); auto; apply (inv_separate _ _ _ I)); subst q; rewrite El; apply in_or_app; right; now left|].
      apply (i_prefix _ _ _ I q from l (y :: r')); auto. discriminate.
  - assert (Pf : phase from = maxp) by (unfold phase in *; lia). destruct (Nat.eqb_spec j maxp) as [Ej|Nj].
    + (* the last phase again *)
      destruct (small_last _ Sm N) as [Ei Fi]. rewrite Ei. cbn [bind].
      set (o := removelast (p_order from) ++ [last (p_order from) 0 + 1]) in *.
      assert (Oo : o = order_base from ++ [order_last from + 1]) by reflexivity. clearbody o.
      unfold props_new. replace (match o with [] => None | _ => _ end) with (Some (Props ctl (p_control from) o None)) by (subst o; destruct (order_base from); reflexivity).
      cbn [ok_or bind andb].
      assert (Lo : length o = S j) by (subst o; rewrite app_length; cbn [length]; lia).
      assert (Bp : order_base (Props ctl (p_control from) o None) = order_base from) by (unfold order_base at 1; cbn [p_order]; rewrite Oo; apply removelast_last).
      assert (Lp : order_last (Props ctl (p_control from) o None) = order_last from + 1) by (unfold order_last at 1; cbn [p_order]; rewrite Oo; apply last_last).
      assert (Pp : phase (Props ctl (p_control from) o None) = maxp) by (unfold phase; cbn [p_order]; lia).
      destruct (bool_dec cum true) as [Cu|Cu]; [|apply not_true_is_false in Cu].
      * replace (if cum then Ok (l, Props ctl (p_control from) o None) else _) with (@Ok (list props * props) (l, Props ctl (p_control from) o None)) by (now rewrite Cu).
        exists l, (Props ctl (p_control from) o None), dfrom. cbn [p_control p_order].
        split; [reflexivity|]. split; [reflexivity|]. split; [assumption|]. split; [assumption|]. split; [right; eauto|].
        split; [apply incl_refl|]. split.
        -- intros _. right. exists from. split; [assumption|]. unfold ChainProofs.prev_pos. rewrite Bp, Lp, Pp, Cu, Nat.eqb_refl. cbn [andb p_prev].
           destruct (Z.ltb_spec 0 (order_last from + 1)); [|lia]. unfold position. rewrite (order_split from N). do 3 f_equal. f_equal. lia.
        -- intros q r Jq Nr E. rewrite Oo, app_comm_cons in E. apply app_prefix_snoc in E as [r' E]; [|assumption]. eapply Pre; eauto.
      * assert (Ll : length l = S maxp) by (rewrite <- Pf; apply (chain_length_plain maxp cum fs from l (inv_all_valid _ _ _ I) Cu C N Ph)).
        match goal with |- context [if cum then ?a else ?b] => replace (if cum then a else b) with b by (now rewrite Cu) end.
        destruct (Nat.leb_spec j (length l)) as [_|]; [|lia].
        assert (Ll' : length l' = maxp) by (rewrite El, app_length in Ll; cbn [length] in Ll; lia).
        assert (Ef : firstn j l = l') by (rewrite El, firstn_app_le by lia; apply firstn_all2; lia). rewrite Ef.
        destruct (deps_prefix from l l' from [] J C El) as (a & Da & K).
        exists l', (Props ctl (p_control from) o None), a. cbn [p_control p_order].
        split; [reflexivity|]. split; [reflexivity|]. split; [assumption|]. split; [assumption|]. split; [assumption|].
        split; [rewrite El; apply incl_appl, incl_refl|]. split.
        -- intros So. destruct (Nat.eq_dec maxp 0) as [M0|M0].
           ++ left. split; [destruct l'; [reflexivity|cbn [length] in Ll'; lia]|]. unfold ChainProofs.prev_pos. rewrite Cu, andb_false_r. cbn [p_order andb].
              destruct (Nat.leb_spec 2 (length o)); [lia|reflexivity].
           ++ destruct So as [?|[?|[?|So]]]; [congruence|lia|lia|]. right. destruct K as [[K _]|(b & Cb & Pb)]; [rewrite K in Ll'; cbn [length] in Ll'; lia|].
              exists b. split; [assumption|]. rewrite <- Pb. unfold ChainProofs.prev_pos. rewrite Cu, !andb_false_r. cbn [p_order p_prev andb]. rewrite Bp, So.
              destruct (Nat.leb_spec 2 (length o)); [|lia]. destruct (Nat.leb_spec 2 (length (p_order from))); [reflexivity|lia].
        -- intros q r Jq Nr E. rewrite Oo, app_comm_cons in E. pose proof E as E0. apply app_prefix_snoc in E as [r' E]; [|assumption].
           assert (In q l) as Q' by (eapply Pre; eauto). rewrite El in Q'. apply in_app_or in Q' as [Q'|[Q'|[]]]; [assumption|]. subst q.
           exfalso. apply (f_equal (@length Z)) in E. unfold position in E. rewrite app_length in E. cbn [length] in E. lia.
    + (* an earlier phase *)
      destruct (Nat.leb_spec (S j) (length (p_order from))) as [Ls|]; [|lia].
      destruct (nth_error l j) as [z|] eqn:Nz; [|apply nth_error_None in Nz; lia].
      pose proof (chain_order _ _ _ _ _ (inv_all_valid _ _ _ I) C N Ph j z Nz ltac:(lia) ltac:(lia)) as Oz. rewrite <- Oz.
      assert (Jz : In z fs) by (eapply chain_all; [exact J|exact C|eapply nth_error_In, Nz]). pose proof (inv_order _ _ _ I _ Jz) as Nz'.
      destruct (i_small _ _ _ I z Jz) as (_ & _ & Smz). destruct (small_last _ Smz Nz') as [Ei Fi]. rewrite Ei. cbn [bind].
      destruct (order_length z Nz') as [Z1 Z2]. pose proof (Pi _ _ Nz) as Pz.
      set (o := removelast (p_order z) ++ [last (p_order z) 0 + 1]) in *.
      assert (Oo : o = order_base z ++ [order_last z + 1]) by reflexivity. clearbody o.
      unfold props_new. replace (match o with [] => None | _ => _ end) with (Some (Props ctl (p_prev z) o None)) by (subst o; destruct (order_base z); reflexivity).
      cbn [ok_or bind andb].
      assert (Lo : length o = S j) by (subst o; rewrite app_length; cbn [length]; lia).
      assert (Bp : order_base (Props ctl (p_prev z) o None) = order_base z) by (unfold order_base at 1; cbn [p_order]; rewrite Oo; apply removelast_last).
      assert (Pp : phase (Props ctl (p_prev z) o None) = j) by (unfold phase; cbn [p_order]; lia).
      destruct (Nat.leb_spec j (length l)) as [_|]; [|lia].
      apply nth_error_split in Nz as (l1 & l2 & E2 & Lj1).
      assert (Ef : firstn j l = l1) by (rewrite E2, firstn_app_le by lia; apply firstn_all2; lia). rewrite Ef.
      destruct (deps_prefix from l l1 z l2 J C E2) as (a & Da & K).
      exists l1, (Props ctl (p_prev z) o None), a. cbn [p_control p_order].
      split; [reflexivity|]. split; [reflexivity|]. split; [assumption|]. split; [assumption|]. split; [assumption|].
      split; [rewrite E2; apply incl_appl, incl_refl|]. split.
      * intros _. replace (prev_pos (Props ctl (p_prev z) o None)) with (prev_pos z); [exact K|]. unfold ChainProofs.prev_pos. rewrite Pp, Bp. cbn [p_order p_prev].
        destruct (Nat.eqb_spec (phase z) maxp); [lia|]. destruct (Nat.eqb_spec j maxp); [lia|]. cbn [andb]. replace (length o) with (length (p_order z)) by lia. reflexivity.
      * intros q r Jq Nr E. rewrite Oo, app_comm_cons in E. apply app_prefix_snoc in E as [r' E]; [|assumption].
        assert (Q' : In q l).
        { apply (i_prefix _ _ _ I q from l (r' ++ order_last z :: skipn (S j) (p_order from)) Jq J); [intros X; apply app_eq_nil in X as [_ X]; discriminate| |exact C].
          assert (Eo : p_order from = order_base z ++ order_last z :: skipn (S j) (p_order from)).
          { etransitivity; [symmetry; apply (firstn_skipn (S j))|]. rewrite <- Oz. etransitivity; [apply (f_equal (fun x => x ++ skipn (S j) (p_order from))), (order_split z Nz')|].
            now rewrite <- app_assoc. }
          unfold position at 1. etransitivity; [apply (f_equal (cons (p_control from))), Eo|]. rewrite app_comm_cons, E. now rewrite <- app_assoc. }
        apply In_nth_error in Q' as [k Q']. pose proof (Pi _ _ Q') as Pk. apply (f_equal (@length Z)) in E. unfold position in E. rewrite app_length in E. cbn [length] in E.
        pose proof (inv_order _ _ _ I _ Jq) as Nq. destruct (order_length q Nq) as [Q1 Q2].
        assert (k < length l1)%nat by lia. rewrite E2, nth_error_app1 in Q' by assumption. eapply nth_error_In, Q'.
Qed.
End Link.
End Inv.
