(** Removing old files of a history. *)
From Verif Require Import Base CompactionModel StringCompactionModel StringCompactionProofs FileNameModel FileNameSpec FileNameProofs
  DocModel DiffProofs PhaseModel PhaseSpec PhaseProofs TreeModel TreeSpec TreeProofs HistModel HistSpec HistProofs ChainProofs HistInvProofs HistSaveProofs HistMainProofs
  RemoveModel RemoveSpec RemoveProofs RemoveLoadProofs RemoveMainProofs.

Section Hist.
Context {doc : Type}.
Variable mkdiff : doc -> doc -> res (list Z).
Variable appdiff : doc -> list Z -> res doc.
Variable same later : doc -> doc -> Prop.
Hypothesis Rep : reproduces mkdiff appdiff same later.
Variable src : doc.
Variable op : options.
Hypothesis Built : exists b, build b = Ok op.
Variable junk : list (list Z).

Notation st := (st doc).
Notation hist := (list (props * doc)).
Notation maxp := (max_phase op).
Notation cum := (is_cumulative op).
Notation Inv := (Inv appdiff same later src op junk).
Notation chain := (chain maxp cum).
Notation prev_pos := (prev_pos maxp cum).
Notation load := (load_history_file doc appdiff src op).
Notation save := (save_history_file doc mkdiff appdiff src op).
Notation reach := (reach mkdiff appdiff later src op).

Lemma reach_mono (sound sound' : st -> hist -> Z -> Prop) : (forall s F id, sound s F id -> sound' s F id) -> forall n s F, reach sound junk n s F -> reach sound' junk n s F.
Proof.
  intros H. induction 1 as [dir Fo|n s F R IH|n s F dir R IH P|n s F id p d r s' R IH Jp E|n s F greater id d p s' R IH Ed So E|n s F greater id d s' R IH Ed E|n s F gone R IH Gj Gc Gb].
  - now apply reach_start.
  - now apply reach_restart.
  - now apply reach_order.
  - eapply reach_load; eassumption.
  - eapply reach_save; eauto.
  - eapply reach_failed; eauto.
  - now apply reach_remove.
Qed.

Lemma in_lastn {A} n (l : list A) x : In x (lastn n l) -> In x l.
Proof. unfold lastn. intros J. rewrite <- (firstn_skipn (length l - n) l). apply in_or_app. now right. Qed.

Lemma removal_reached n s F names h k l : reach (sound_save op) junk n s F -> Z.of_nat n + 1 < 100000000 -> regular maxp cum (map fst F) ->
  Permutation names (map fst (s_dir doc s)) -> create_file_history names = Ok h -> get_removable_old_items maxp cum h k = Ok l ->
  (forall id base, s_cur doc s = Some (id, base) -> ~ In base l) ->
  exists F', reach (sound_save op) junk n (St doc (remove_files l (s_dir doc s)) (s_cache doc s) (s_cur doc s)) F' /\
    forall p d, In (p, d) F' <-> In (p, d) F /\ ~ In p l.
Proof.
  intros R Sm Rg P Ch E Cur. assert (I : Inv n s F) by (apply (reach_inv mkdiff); auto; lia). pose proof (i_folder _ _ _ _ _ _ _ _ _ I) as Fo.
  pose proof (inv_separate _ _ _ _ _ _ _ _ _ I) as Sep. pose proof (fun p J => proj1 (i_small _ _ _ _ _ _ _ _ _ I p J)) as Small.
  destruct (folder_h _ _ _ Fo Sep names P) as (h1 & Ch1 & T & It & Lk & Fl & Pl & _). rewrite Ch in Ch1. apply Ok_inj in Ch1. subst h1.
  destruct (removable_list maxp cum h k T It) as (l' & K & E' & _ & _ & _ & Il & _). rewrite E in E'. apply Ok_inj in E'. subst l'.
  assert (Igf : incl l (map fst F)). { intros q X. apply Fl. rewrite <- list_files_flatten by assumption. auto. }
  pose proof Fo as (_ & _ & V & Rd & Jk). assert (Vf : forall p, In p (map fst F) -> valid_props p) by (rewrite Forall_forall in V; auto).
  assert (Vg : Forall valid_props l) by (apply Forall_forall; auto).
  assert (Gone : forall p, In p (map fst F) -> (named_in l (filename p) = false <-> ~ In p l)).
  { intros p J. rewrite <- (named_in_file l p Vg (Vf p J)). destruct (named_in l (filename p)); split; congruence. }
  exists (filter (fun e => negb (named_in l (filename (fst e)))) F). split.
  - rewrite remove_files_filter. apply reach_remove; [exact R| | |].
    + rewrite Forall_forall in *. intros name J. destruct (named_in l name) eqn:G; [|reflexivity]. apply named_in_spec in G as (p & Ip & <-). specialize (Jk _ J).
      apply Igf in Ip. rewrite (proj1 (analyze_name p (V p Ip))) in Jk by auto. discriminate.
    + intros p d h0 c Ip Gp Ch0 Ec. destruct (folder_h _ _ _ Fo Sep _ (Permutation_refl _)) as (h1 & Ch1 & _ & _ & Lk1 & _). rewrite Ch0 in Ch1. apply Ok_inj in Ch1. subst h1.
      pose proof (fst_in _ _ _ Ip) as J. pose proof (ancestors_chain maxp cum (map fst F) h0 p c Lk1 V (Vf p J) (Small p J) Ec) as C. apply (Gone p J) in Gp.
      apply Forall_forall. intros q Q. eapply (chain_stays _ _ _ Fo op Small Rg h k l l p c T It Lk Fl E (incl_refl _) J Gp C q Q).
    + intros id base Ec. apply Gone; [eapply (i_cur _ _ _ _ _ _ _ _ _ I), Ec|eauto].
  - intros p d. rewrite filter_In. cbn [fst]. rewrite negb_true_iff. split; intros [A B]; (split; [exact A|]); apply Gone; auto; eapply fst_in, A.
Qed.

(** ** Saving on and on *)

Definition linear (fs : list props) : Prop := forall p, In p fs -> p_prev p = p_control p /\
  (0 < order_last p -> exists q, In q fs /\ position q = p_control p :: order_base p ++ [order_last p - 1]).

Lemma linear_chain fs p l : linear fs -> In p fs -> chain fs p l -> forall x, In x l -> p_control x = p_control p.
Proof.
  intros Li Ip C. induction C as [p H|p q l H I C IH]; intros x X; [destruct X as [->|[]]; reflexivity|]. apply in_app_or in X as [X|[->|[]]]; [|reflexivity].
  rewrite (IH I x X). destruct (Li p Ip) as [E _]. unfold ChainProofs.prev_pos in H. destruct ((phase p =? maxp)%nat && cum && (0 <? order_last p)); [|destruct (2 <=? length (p_order p))%nat; [|discriminate]];
    apply Some_inj in H; unfold position in H; congruence.
Qed.

Lemma linear_snoc fs p : linear fs -> p_prev p = p_control p -> (0 < order_last p -> exists q, In q fs /\ position q = p_control p :: order_base p ++ [order_last p - 1]) -> linear (fs ++ [p]).
Proof.
  intros Li A B q J. apply in_app_or in J as [J|[<-|[]]].
  - destruct (Li q J) as [X Y]. split; [assumption|]. intros L. destruct (Y L) as (x & Ix & Ex). exists x. split; [apply in_or_app; now left|assumption].
  - split; [assumption|]. intros L. destruct (B L) as (x & Ix & Ex). exists x. split; [apply in_or_app; now left|assumption].
Qed.

Lemma start_linear d s p s' fs : folder (s_dir doc s) fs junk -> start_new doc mkdiff appdiff src op None d s = (Ok p, s') -> p_prev p = p_control p /\ order_last p = 0.
Proof.
  intros F H. pose proof F as (_ & _ & V & _). destruct (folder_tree _ _ _ _ F (Permutation_refl _)) as (h & C & T).
  unfold start_new in H. rewrite C in H. destruct (get_newest h) as [np|] eqn:En.
  - apply bindM_ok in H as (ctl & s0 & X & H). apply ret_ok in X as [Ec ->]. destruct (tree_of_newest h fs np V T En) as [In_np Max].
    assert (Vn : valid_props np) by (rewrite Forall_forall in V; auto). destruct Vn as ([L0 L1] & _). apply u32_inc_ok in Ec as [-> L].
    apply write_0_ok in H as (composed & s1 & v & header & _ & _ & _ & A & ->); [|lia].
    apply (phase_0_props mkdiff appdiff src (fun _ _ _ _ => false)) in A as (E & _); [|unfold u32; lia]. subst p. split; reflexivity.
  - apply write_0_ok in H as (composed & s1 & v & header & _ & _ & _ & A & ->); [|lia]. apply (phase_0_props mkdiff appdiff src (fun _ _ _ _ => false)) in A as (E & _); [|unfold u32; lia]. subst p. split; reflexivity.
Qed.

Lemma inc_parts o o' : o <> [] -> inc_last o = Ok o' -> removelast o' = removelast o /\ last o' 0 = last o 0 + 1 /\ o' <> [].
Proof.
  intros N H. apply inc_last_ok in H as [-> _]. rewrite removelast_last, last_last. repeat split; auto. intros E. apply app_eq_nil in E as [_ E]. discriminate.
Qed.

Lemma save_linear greater id d n s F p s' : Inv n s F -> Z.of_nat n + 1 < 100000000 -> linear (map fst F) -> continues s F id ->
  save greater None id d s = (Ok p, s') -> linear (map fst F ++ [p]).
Proof.
  intros I Sm Li Co H. pose proof (i_folder _ _ _ _ _ _ _ _ _ I) as Fo. pose proof Fo as (_ & _ & V & _). set (fs := map fst F) in *.
  destruct (inv_tree _ _ _ _ _ _ _ _ _ I _ (Permutation_refl _)) as (h & Ch & T & Lk). fold fs in T, Lk.
  assert (Fresh : forall s', bindM doc (start_new doc mkdiff appdiff src op None d)
    (fun saved => bindM doc (set_cur doc id saved) (fun _ => ret doc (Ok saved))) s = (Ok p, s') -> linear (fs ++ [p])).
  { intros s2 X. apply bindM_ok in X as (q & s3 & X & Y). apply bindM_ok in Y as ([] & s4 & Y & W). apply ret_ok in W as [W ->]. apply Ok_inj in W. subst q.
    apply (start_linear d s p s3 fs Fo) in X as [A B]. apply linear_snoc; auto. lia. }
  unfold save_history_file in H. destruct (s_cur doc s) as [[cur_id base]|] eqn:Ec; [|eapply Fresh, H]. destruct (Z.eqb_spec id cur_id) as [->|]; [|eapply Fresh, H]. rewrite Ch in H.
  destruct (get_newest h) as [np|] eqn:En; [|eapply Fresh, H]. clear Fresh. assert (Jb : In base fs) by (eapply (i_cur _ _ _ _ _ _ _ _ _ I), Ec).
  assert (Enp : np = base).
  { specialize (Co base Ec). destruct (folder_listing fs junk (map fst (s_dir doc s))) as (h' & Ch' & Cl & Pe & L); try apply Fo; [eapply inv_separate; eassumption|].
    rewrite Ch in Ch'. apply Ok_inj in Ch'. subst h'. assert (E : list_files h = fs) by (apply chronological_unique; auto; apply (i_sorted _ _ _ _ _ _ _ _ _ I)). rewrite E in L. fold fs in Co. congruence. }
  subst np. apply bindM_ok in H as (from & s0 & X & H). apply ret_ok in X as [Ef ->].
  assert (from = base). { unfold choose_from in Ef. rewrite props_eqb_refl in Ef. cbn [negb] in Ef. rewrite andb_false_r in Ef. apply Ok_inj in Ef. congruence. } subst from.
  apply bindM_ok in H as (q & s3 & X & Y). apply bindM_ok in Y as ([] & s4 & Y & W). apply ret_ok in W as [W ->]. apply Ok_inj in W. subst q. clear Y.
  apply derive_ok in X as (np & ctl & content & vals & k & rest & data & j & anc & deps & composed & s1 & v & data' & header & En' & Ect & _ & _ & _ & _ & Ea & Ed & _).
  rewrite En in En'. apply Some_inj in En'. subst np. rewrite props_eqb_refl in Ect. apply Ok_inj in Ect. subst ctl.
  assert (Vb : valid_props base) by (rewrite Forall_forall in V; auto). assert (Nb : p_order base <> []) by apply Vb. destruct (i_small _ _ _ _ _ _ _ _ _ I base Jb) as [Ph _].
  pose proof (ancestors_chain maxp cum fs h base anc Lk V Vb Ph Ea) as C. destruct (chain_last _ _ _ _ _ C) as [l' El]. destruct (Li base Jb) as [Pb _].
  unfold create_dependencies in Ed. destruct anc as [|a anc]; [destruct l'; discriminate|]. cbv zeta in Ed.
  assert (La : last (a :: anc) a = base) by (rewrite El; apply last_last). rewrite La in Ed. apply bind_ok in Ed as ([o c] & H1 & H2). apply bind_ok in H2 as (p' & P & H2).
  assert (Ep : p' = p). { destruct ((j =? maxp)%nat && cum); [|destruct (j <=? length (a :: anc))%nat; [|discriminate]]; apply Ok_inj in H2; congruence. } subst p'. clear H2.
  unfold props_new in P. destruct o as [|o0 o]; [discriminate|]. cbn [ok_or] in P. apply Ok_inj in P. set (ord := o0 :: o) in *. subst p.
  destruct (order_length base Nb) as [B1 B2].
  destruct (length (p_order base) - 1 <? maxp)%nat eqn:L1; [|destruct (j =? maxp)%nat eqn:L2].
  - apply Ok_inj in H1. inversion H1 as [[E1 E2]]. apply linear_snoc; [assumption|reflexivity|]. unfold order_last. cbn [p_order]. rewrite last_last. lia.
  - apply bind_ok in H1 as (o' & H1 & E). apply Ok_inj in E. inversion E; subst o' c. destruct (inc_parts _ _ Nb H1) as (I1 & I2 & _).
    apply linear_snoc; [assumption|reflexivity|]. intros _. exists base. split; [assumption|]. unfold order_base, order_last, position. cbn [p_order p_control]. rewrite I1, I2.
    replace (last (p_order base) 0 + 1 - 1) with (last (p_order base) 0) by lia. now rewrite <- app_removelast_last by assumption.
  - destruct (S j <=? length (p_order base))%nat eqn:L3; [|discriminate]. apply Nat.leb_le in L3. apply Nat.ltb_ge in L1. apply Nat.eqb_neq in L2. apply bind_ok in H1 as (o' & H1 & E).
    destruct (nth_error (a :: anc) j) as [q|] eqn:Nq; [|discriminate]. apply Ok_inj in E. inversion E; subst o' c.
    assert (Nf : firstn (S j) (p_order base) <> []) by (destruct (p_order base); [congruence|discriminate]).
    destruct (inc_parts _ _ Nf H1) as (I1 & I2 & _). assert (Lj : (j < maxp)%nat) by (unfold phase in *; lia).
    pose proof (chain_order _ _ _ _ _ V C Nb Ph j q Nq Lj ltac:(unfold phase; lia)) as Oq. apply nth_error_In in Nq.
    assert (Iq : In q fs) by (destruct (chain_in _ _ _ _ _ _ C Nq) as [->|?]; assumption). pose proof (linear_chain fs base _ Li Jb C q Nq) as Cq.
    apply linear_snoc; [assumption|cbn [p_prev p_control]; destruct (Li q Iq); congruence|]. intros _. exists q. split; [assumption|].
    unfold order_base, order_last, position. cbn [p_order p_control]. rewrite I1, I2.
    replace (last (firstn (S j) (p_order base)) 0 + 1 - 1) with (last (firstn (S j) (p_order base)) 0) by lia. rewrite <- app_removelast_last by assumption. congruence.
Qed.

Lemma filter_length_le {A} (f : A -> bool) l : (length (filter f l) <= length l)%nat.
Proof. induction l as [|x l IH]; cbn [filter length]; [lia|]. destruct (f x); cbn [length]; lia. Qed.
Lemma filter_all {A} (f : A -> bool) l : length (filter f l) = length l -> filter f l = l.
Proof.
  induction l as [|x l IH]; [reflexivity|]. cbn [filter]. pose proof (filter_length_le f l) as L. destruct (f x); cbn [length]; intros E; [f_equal; apply IH; lia|lia].
Qed.

Lemma reach_length sound n s F : reach sound junk n s F -> (length F <= n)%nat.
Proof.
  induction 1 as [dir Fo|n s F R IH|n s F dir R IH P|n s F id p d r s' R IH Jp E|n s F greater id d p s' R IH Ed So E|n s F greater id d s' R IH Ed E|n s F gone R IH Gj Gc Gb]; auto.
  - rewrite app_length. cbn [length]. lia.
  - pose proof (filter_length_le (fun e => negb (gone (filename (fst e)))) F). lia.
Qed.

Lemma reach_linear n s F : cum = true -> reach continues junk n s F -> Z.of_nat n + 1 < 100000000 -> length F = n -> linear (map fst F).
Proof.
  intros Cu. induction 1 as [dir Fo|n s F R IH|n s F dir R IH P|n s F id p d r s' R IH Jp E|n s F greater id d p s' R IH Ed So E|n s F greater id d s' R IH Ed E|n s F gone R IH Gj Gc Gb]; intros Sm Le; auto.
  - intros p [].
  - rewrite app_length in Le. cbn [length] in Le. rewrite map_app. cbn [map fst]. eapply (save_linear greater id d n s F p s'); try eassumption; try lia; [|apply IH; lia].
    apply (reach_inv mkdiff); auto; [|lia]. eapply reach_mono; [|exact R]. intros s0 F0 id0 _. now left.
  - pose proof (filter_length_le (fun e => negb (gone (filename (fst e)))) F). pose proof (reach_length _ _ _ _ R). rewrite filter_all by lia. apply IH; lia.
Qed.

Lemma linear_regular n s F : (1 <= maxp)%nat -> reach continues junk n s F -> Z.of_nat n + 1 < 100000000 -> length F = n -> regular maxp cum (map fst F).
Proof.
  intros M R Sm Le Cu. pose proof (reach_linear n s F Cu R Sm Le) as Li. split; [assumption|]. split.
  - intros p J _ _. now apply Li.
  - intros p J _ _ L. destruct (Li p J) as [A B]. destruct (B L) as (q & Iq & Eq). exists q. split; [assumption|]. split; [assumption|]. destruct (Li q Iq) as [A' _].
    unfold position in Eq. congruence.
Qed.

(** ** Loading after a removal *)

Lemma removal_loads n s F names h k : reach (sound_save op) junk n s F -> Z.of_nat n + 1 < 100000000 -> regular maxp cum (map fst F) ->
  Permutation names (map fst (s_dir doc s)) -> create_file_history names = Ok h ->
  exists l, get_removable_old_items maxp cum h k = Ok l /\ incl l (map fst F) /\ (forall p, In p (lastn k (map fst F)) -> ~ In p l) /\
    forall gone p d id, incl gone l -> In (p, d) F -> ~ In p l -> exists r,
      load id p s = (Ok r, St doc (s_dir doc s) (s_cache doc s) (Some (id, p))) /\ same r d /\
      load id p (St doc (remove_files gone (s_dir doc s)) (s_cache doc s) (s_cur doc s)) =
        (Ok r, St doc (remove_files gone (s_dir doc s)) (s_cache doc s) (Some (id, p))).
Proof.
  intros R Sm Rg P Ch. assert (I : Inv n s F) by (apply (reach_inv mkdiff); auto; lia). pose proof (i_folder _ _ _ _ _ _ _ _ _ I) as Fo.
  pose proof (inv_separate _ _ _ _ _ _ _ _ _ I) as Sep. pose proof (fun p J => proj1 (i_small _ _ _ _ _ _ _ _ _ I p J)) as Small.
  destruct (folder_h _ _ _ Fo Sep names P) as (h1 & Ch1 & T & It & Lk & Fl & Pl & _). rewrite Ch in Ch1. apply Ok_inj in Ch1. subst h1.
  destruct (reached_list mkdiff appdiff same later Rep src op Built junk n s F names R Sm P) as (h1 & Ch1 & Li & _). rewrite Ch in Ch1. apply Ok_inj in Ch1. subst h1.
  destruct (removable_list maxp cum h k T It) as (l & K & E & _ & _ & _ & Il & Nl & _). rewrite Li in *. exists l. split; [exact E|]. split; [exact Il|]. split; [exact Nl|].
  intros gone p d id Ig J Np. destruct (load_reached mkdiff appdiff same later Rep src op Built junk n s F id p d R Sm J) as (r & El & Sr). exists r. split; [exact El|]. split; [exact Sr|].
  destruct s as [dir c cur]. cbn [s_dir s_cache s_cur] in *.
  exact (load_removed dir (map fst F) junk Fo Sep op Small Rg appdiff src names h k l gone p id id c cur cur r _ P Ch E Ig (in_map fst _ _ J) Np El).
Qed.

Lemma removal_rest n s F names h k l q : reach (sound_save op) junk n s F -> Z.of_nat n + 1 < 100000000 -> regular maxp cum (map fst F) ->
  Permutation names (map fst (s_dir doc s)) -> create_file_history names = Ok h -> get_removable_old_items maxp cum h k = Ok l -> In q (map fst F) ->
  (forall p anc, In p (lastn k (map fst F)) -> create_ancestors h p maxp cum = Ok anc -> ~ kept_for maxp cum anc q) -> In q l.
Proof.
  intros R Sm Rg P Ch E Jq Nk. assert (I : Inv n s F) by (apply (reach_inv mkdiff); auto; lia). pose proof (i_folder _ _ _ _ _ _ _ _ _ I) as Fo.
  pose proof (inv_separate _ _ _ _ _ _ _ _ _ I) as Sep. pose proof (fun p J => proj1 (i_small _ _ _ _ _ _ _ _ _ I p J)) as Small.
  destruct (folder_h _ _ _ Fo Sep names P) as (h1 & Ch1 & T & It & Lk & Fl & Pl & _). rewrite Ch in Ch1. apply Ok_inj in Ch1. subst h1.
  destruct (reached_list mkdiff appdiff same later Rep src op Built junk n s F names R Sm P) as (h1 & Ch1 & Li & _). rewrite Ch in Ch1. apply Ok_inj in Ch1. subst h1.
  destruct (folder_h _ _ _ Fo Sep _ (Permutation_refl _)) as (h0 & Ch0 & T0 & It0 & Lk0 & _).
  assert (Anc : forall p, In p (map fst F) -> exists anc, create_ancestors h p maxp cum = Ok anc).
  { intros p Jp. apply in_map_iff in Jp as ([p' d] & <- & J). cbn [fst]. destruct (load_reached mkdiff appdiff same later Rep src op Built junk n s F 0 p' d R Sm J) as (r & El & _).
    pose proof Fo as (_ & _ & V & Rd & _). assert (Jf : In p' (map fst F)) by exact (in_map fst _ _ J). rewrite Forall_forall in V, Rd.
    unfold load_history_file in El. rewrite Ch0 in El. apply bindM_ok in El as (d' & s1 & H & _). unfold HistModel.load in H. pose proof (proj1 (analyze_name p' (V _ Jf)) (Rd _ Jf)) as An.
    rewrite An in H. apply bindM_ok in H as (o & s2 & X & H). apply ret_ok in X as [X ->]. apply Ok_inj in X. subst o.
    apply bindM_ok in H as (p'' & s2 & X & H). apply ret_ok in X as [X ->]. cbn [ok_or] in X. apply Ok_inj in X. subst p''.
    apply bindM_ok in H as (anc & s2 & X & H). apply ret_ok in X as [Ea ->]. exists anc. assert (V' : Forall valid_props (map fst F)) by (apply Forall_forall; exact V).
    apply (chain_ancestors maxp cum (map fst F) h p' anc Lk V' (V _ Jf) (Small _ Jf)). exact (ancestors_chain maxp cum (map fst F) h0 p' anc Lk0 V' (V _ Jf) (Small _ Jf) Ea). }
  apply (removed_rest _ _ _ Fo Sep op Small Rg names h k l q P Ch E); [|exact Jq|rewrite Li; exact Nk].
  rewrite Li. intros p Jp. apply Anc. eapply in_lastn, Jp.
Qed.

End Hist.
