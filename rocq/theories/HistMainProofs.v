(** Loading, branching and the cache in every history. *)
From Verif Require Import Base CompactionModel StringCompactionModel StringCompactionProofs FileNameModel FileNameSpec FileNameProofs
  DocModel DiffProofs PhaseModel PhaseSpec PhaseProofs TreeModel TreeSpec TreeProofs HistModel HistSpec HistProofs ChainProofs HistInvProofs HistSaveProofs.

(** ** The numbers grow by one *)

Definition bounded (b : Z) (p : props) : Prop := p_control p < b /\ Forall (fun n => n < b) (p_order p).

Lemma inc_bounded b o o' : Forall (fun n => n < b) o -> o <> [] -> inc_last o = Ok o' -> Forall (fun n => n < b + 1) o'.
Proof.
  intros U N H. apply inc_last_ok in H as [-> _]. rewrite (app_removelast_last 0 N) in U. apply Forall_app in U as [U1 U2]. inversion U2; subst.
  apply Forall_app. split; [eapply Forall_impl; [|exact U1]; cbv beta; lia|]. constructor; [lia|constructor].
Qed.

Lemma dependencies_bounded b anc np ctl tag maxp cum deps p from : 0 < b -> last anc from = from -> anc <> [] -> p_order from <> [] ->
  Forall (fun n => n < b) (p_order from) -> create_dependencies anc np ctl tag maxp cum = Ok (deps, p) -> Forall (fun n => n < b + 1) (p_order p).
Proof.
  intros B L N Vn Vo H. destruct anc as [|a anc]; [congruence|]. unfold create_dependencies in H.
  assert (E : last (a :: anc) a = from). { rewrite <- L. apply last_default. discriminate. }
  rewrite E in H. clear E. apply bind_ok in H as ([o c] & H1 & H2). cbv zeta in H1.
  assert (X : Forall (fun n => n < b + 1) o).
  { destruct (length (p_order from) - 1 <? maxp)%nat.
    - apply Ok_inj in H1. inversion H1; subst. apply Forall_app. split; [eapply Forall_impl; [|exact Vo]; cbv beta; lia|]. constructor; [lia|constructor].
    - destruct (np =? maxp)%nat.
      + apply bind_ok in H1 as (o1 & I & H1). apply Ok_inj in H1. inversion H1; subst. eapply inc_bounded; eassumption.
      + destruct (Nat.leb_spec (S np) (length (p_order from))) as [Q|Q]; [|discriminate]. apply bind_ok in H1 as (o1 & I & H1).
        destruct (nth_error (a :: anc) np) as [q|] eqn:Eq; [|discriminate]. apply Ok_inj in H1. inversion H1; subst.
        apply (inc_bounded b) in I; [assumption| |].
        * rewrite <- (firstn_skipn (S np) (p_order from)) in Vo. now apply Forall_app in Vo as [Vo _].
        * intros E. apply (f_equal (@length Z)) in E. rewrite firstn_length in E. cbn [length] in E. lia. }
  apply bind_ok in H2 as (p' & P & H2). unfold props_new in P. destruct o as [|o0 o]; [discriminate|]. cbn [ok_or] in P. apply Ok_inj in P.
  assert (p = p').
  { destruct ((np =? maxp)%nat && cum); [apply Ok_inj in H2; congruence|]. destruct (np <=? length (a :: anc))%nat; [|discriminate]. apply Ok_inj in H2. congruence. }
  subst p p'. exact X.
Qed.

Section Room.
Context {doc : Type}.
Variable mkdiff : doc -> doc -> res (list Z).
Variable appdiff : doc -> list Z -> res doc.
Variable src : doc.
Variable op : options.

Lemma save_readable greater id d fs junk s p s' : folder (s_dir doc s) fs junk -> Forall room fs ->
  (forall id base, s_cur doc s = Some (id, base) -> valid_props base /\ room base) ->
  save_history_file doc mkdiff appdiff src op greater None id d s = (Ok p, s') -> readable p.
Proof.
  intros F Rm Cur H. destruct (save_later mkdiff appdiff src op greater id d fs junk s p s' F) as (Vp & Tp & _); [intros i b E; apply (Cur i b E)|exact H|].
  unfold save_history_file in H. pose proof F as (_ & _ & V & _). destruct (folder_tree _ _ _ _ F (Permutation_refl _)) as (h & C & T).
  assert (Fresh : forall s', bindM doc (start_new doc mkdiff appdiff src op None d)
    (fun saved => bindM doc (set_cur doc id saved) (fun _ => ret doc (Ok saved))) s = (Ok p, s') -> readable p).
  { intros s2 X. apply bindM_ok in X as (q & s3 & X & Y). apply bindM_ok in Y as ([] & s4 & Y & W). apply ret_ok in W as [W ->]. apply Ok_inj in W. subst q.
    apply (start_new_later mkdiff appdiff src op greater d fs junk) in X as (_ & B & _); [assumption|exact F]. }
  destruct (s_cur doc s) as [[cur_id base]|] eqn:Ec; [|eapply Fresh, H]. destruct (id =? cur_id); [|eapply Fresh, H]. rewrite C in H.
  destruct (get_newest h) as [np|] eqn:En; [|eapply Fresh, H]. clear Fresh. destruct (Cur _ _ eq_refl) as [Vb Rb].
  apply bindM_ok in H as (from & s0 & X & H). apply ret_ok in X as [Ef ->].
  apply bindM_ok in H as (q & s3 & X & Y). apply bindM_ok in Y as ([] & s4 & Y & W). apply ret_ok in W as [W ->]. apply Ok_inj in W. subst q. clear Y.
  assert (Vf : valid_props from) by (eapply choose_from_valid; eauto).
  assert (Rf : room from).
  { unfold choose_from in Ef. destruct ((phase base =? max_phase op)%nat && negb (props_eqb base np)); [|apply Ok_inj in Ef; congruence].
    destruct (get_parent h base) as [q|] eqn:E; [|discriminate]. cbn [ok_or] in Ef. apply Ok_inj in Ef. subst q. unfold get_parent in E.
    apply (tree_of_get h fs V T) in E as [J _]. rewrite Forall_forall in Rm. auto. }
  destruct (tree_of_newest h fs np V T En) as [In_np _]. assert (Rn : room np) by (rewrite Forall_forall in Rm; auto).
  apply derive_ok in X as (np' & ctl & content & vals & k & rest & data & j & anc & deps & composed & s1 & v & data' & header &
    En' & Ect & _ & _ & _ & _ & Ea & Ed & _). rewrite En in En'. apply Some_inj in En'. subst np'.
  destruct (ancestors_in h valid_props from _ _ _ (fun c o q G => proj1 (Forall_forall _ _) V q (proj1 (tree_of_get h fs V T c o q G))) Ea) as (l' & -> & Fl).
  assert (Bc : ctl < 100000000).
  { destruct Rn as [Rn _]. destruct (props_eqb np from); [apply Ok_inj in Ect; lia|]. apply u32_inc_ok in Ect as [-> _]. lia. }
  assert (Uc : u32 ctl).
  { assert (Vn : valid_props np) by (rewrite Forall_forall in V; auto). destruct (props_eqb np from); [apply Ok_inj in Ect; subst; apply Vn|]. apply u32_inc_ok in Ect as [-> L]. destruct Vn as (? & _). unfold u32 in *. lia. }
  pose proof Ed as Ed2. apply (create_dependencies_ok _ _ _ _ _ _ _ _ from) in Ed2 as (Pc & _); auto; [|apply last_last|intros E; apply app_eq_nil in E as [_ E]; discriminate|apply Forall_app; auto].
  apply (dependencies_bounded 99999999 _ _ _ _ _ _ _ _ from) in Ed; [|lia|apply last_last|intros E; apply app_eq_nil in E as [_ E]; discriminate|apply Vf|apply Rf].
  split; [assumption|]. split; [lia|exact Ed].
Qed.

Lemma save_new greater id d fs junk s p s' : folder (s_dir doc s) fs junk -> Forall room fs ->
  (forall id base, s_cur doc s = Some (id, base) -> valid_props base /\ room base) ->
  save_history_file doc mkdiff appdiff src op greater None id d s = (Ok p, s') ->
  ~ In (filename p) (map fst (s_dir doc s)) /\ folder (s_dir doc s') (fs ++ [p]) junk /\
  (forall name content, hget name (s_dir doc s) = Some content -> hget name (s_dir doc s') = Some content) /\
  (forall names, Permutation names (map fst (s_dir doc s')) ->
     exists h, create_file_history names = Ok h /\ get_newest h = Some p).
Proof.
  intros F Rm Cur H. eapply (save_newest mkdiff appdiff src op greater id d); [exact F|intros i b E; apply (Cur i b E)|exact H|]. eapply save_readable; eassumption.
Qed.

End Room.

Section Main.
Context {doc : Type}.
Variable mkdiff : doc -> doc -> res (list Z).
Variable appdiff : doc -> list Z -> res doc.
Variable same later : doc -> doc -> Prop.
Hypothesis Rep : reproduces mkdiff appdiff same later.
Variable src : doc.
Variable op : options.
Hypothesis Built : exists b, build b = Ok op.
Variable junk : list (list Z).

Notation st := (st doc).
Notation maxp := (max_phase op).
Notation cum := (is_cumulative op).
Notation Inv := (Inv appdiff same later src op junk).
Notation reach := (reach mkdiff appdiff later src op (sound_save op) junk).
Notation save := (save_history_file doc mkdiff appdiff src op).
Notation load := (load_history_file doc appdiff src op).

Lemma load_reached n s F id p d : reach n s F -> Z.of_nat n + 1 < 100000000 -> In (p, d) F ->
  exists r, load id p s = (Ok r, St doc (s_dir doc s) (s_cache doc s) (Some (id, p))) /\ same r d.
Proof.
  intros R Sm J. assert (I : Inv n s F) by (apply (reach_inv mkdiff); auto; lia). eapply (load_ok mkdiff); try eassumption. lia.
Qed.

Lemma save_total greater n s F id d : Inv n s F -> Z.of_nat n + 1 < 100000000 -> edited later src s F id d -> limited op ->
  (forall base, s_cur doc s = Some (id, base) -> continuable op (map fst F) base) ->
  exists p s', save greater None id d s = (Ok p, s') /\ (sound_save op s F id -> Inv (S n) s' (F ++ [(p, d)])).
Proof.
  intros I Sm Ed Lm Hc. destruct (save_step mkdiff appdiff same later Rep src op Built junk greater n s F id d I ltac:(lia) Ed)
    as [(p & s' & E & _ & X)|[(E & base & h & np & Ec & Ch & En & Ph & Nb & G)|(r & pd & saves & E & Nr & Rc & Mo & Nj)]].
  - exists p, s'. auto.
  - exfalso. pose proof (i_cur _ _ _ _ _ _ _ _ _ I _ _ Ec) as Jb. destruct (inv_tree _ _ _ _ _ _ _ _ _ I _ (Permutation_refl _)) as (h' & Ch' & T & Lk).
    rewrite Ch in Ch'. apply Ok_inj in Ch'. subst h'. destruct (Hc base Ec) as [?|[X|(q & Jq & P)]]; [lia| |].
    + destruct (tree_of_newest h _ np (inv_all_valid _ _ _ _ _ _ _ _ _ I) T En) as [Jn Max]. destruct (X np Jn) as [Q|Q]; [congruence|]. destruct (Max base Jb) as [Q'|Q'].
      * apply Nb. apply (position_inj (map fst F)); auto. eapply inv_separate; eassumption.
      * apply (earlier_irrefl _ (earlier_trans _ _ _ Q Q')).
    + unfold get_parent in G. assert (get_props h (p_prev base) (order_base base) = Some q) by (apply Lk; auto). congruence.
  - exfalso. destruct Built as [b B]. destruct (next_position greater b op saves pd B Rc Mo) as (j & Ej & _); [exact Lm|]. apply (Nj j Ej).
Qed.

Lemma save_reached greater n s F id d : reach n s F -> Z.of_nat n + 1 < 100000000 -> edited later src s F id d -> limited op ->
  (forall base, s_cur doc s = Some (id, base) -> continuable op (map fst F) base) ->
  exists p s', save greater None id d s = (Ok p, s').
Proof.
  intros R Sm Ed Lm Hc. destruct (save_total greater n s F id d) as (p & s' & E & _); eauto. apply (reach_inv mkdiff); auto. lia.
Qed.

(** where a failed save comes from *)
Lemma failed_save greater n s F id d s' r : reach n s F -> Z.of_nat n + 1 < 100000000 -> edited later src s F id d -> limited op ->
  save greater None id d s = (r, s') -> (exists p, r = Ok p) \/ (r = Err /\ s' = s /\ exists base, s_cur doc s = Some (id, base) /\ ~ continuable op (map fst F) base).
Proof.
  intros R Sm Ed Lm E. assert (I : Inv n s F) by (apply (reach_inv mkdiff); auto; lia).
  destruct (save_step mkdiff appdiff same later Rep src op Built junk greater n s F id d I ltac:(lia) Ed)
    as [(p & s1 & E' & _ & X)|[(E' & base & h & np & Ec & Ch & En & Ph & Nb & G)|(r' & pd & saves & E' & Nr & Rc & Mo & Nj)]]; rewrite E in E'; inversion E'; subst; clear E'.
  - left. eauto.
  - right. split; [reflexivity|]. split; [reflexivity|]. exists base. split; [assumption|]. intros Hc.
    pose proof (i_cur _ _ _ _ _ _ _ _ _ I _ _ Ec) as Jb. destruct (inv_tree _ _ _ _ _ _ _ _ _ I _ (Permutation_refl _)) as (h' & Ch' & T & Lk).
    rewrite Ch in Ch'. apply Ok_inj in Ch'. subst h'. destruct Hc as [?|[X|(q & Jq & P)]]; [lia| |].
    + destruct (tree_of_newest h _ np (inv_all_valid _ _ _ _ _ _ _ _ _ I) T En) as [Jn Max]. destruct (X np Jn) as [Q|Q]; [congruence|]. destruct (Max base Jb) as [Q'|Q'].
      * apply Nb. apply (position_inj (map fst F)); auto. eapply inv_separate; eassumption.
      * apply (earlier_irrefl _ (earlier_trans _ _ _ Q Q')).
    + unfold get_parent in G. assert (get_props h (p_prev base) (order_base base) = Some q) by (apply Lk; auto). congruence.
  - exfalso. destruct Built as [b B]. destruct (next_position greater b op saves pd B Rc Mo) as (j & Ej & _); [exact Lm|]. apply (Nj j Ej).
Qed.

(** ** New files and the listing *)

Lemma room_of n s F : Inv n s F -> Z.of_nat n + 1 < 100000000 -> Forall room (map fst F).
Proof.
  intros I Sm. apply Forall_forall. intros p J. destruct (i_small _ _ _ _ _ _ _ _ _ I p J) as (_ & A & B). split; [lia|]. eapply Forall_impl; [|exact B]. cbv beta. lia.
Qed.

Lemma reached_new greater n s F id d p s' : reach n s F -> Z.of_nat n + 1 < 100000000 -> save greater None id d s = (Ok p, s') ->
  ~ In (filename p) (map fst (s_dir doc s)) /\
  (forall name content, hget name (s_dir doc s) = Some content -> hget name (s_dir doc s') = Some content) /\
  (forall names, Permutation names (map fst (s_dir doc s')) -> exists h, create_file_history names = Ok h /\ get_newest h = Some p).
Proof.
  intros R Sm E. assert (I : Inv n s F) by (apply (reach_inv mkdiff); auto; lia). pose proof (room_of n s F I Sm) as Rm.
  destruct (save_new mkdiff appdiff src op greater id d (map fst F) junk s p s') as (A & _ & B & C); auto; [apply (i_folder _ _ _ _ _ _ _ _ _ I)|].
  intros i b E'. apply (i_cur _ _ _ _ _ _ _ _ _ I) in E'. split; [eapply inv_valid; eassumption|]. rewrite Forall_forall in Rm. auto.
Qed.

Lemma reached_list n s F names : reach n s F -> Z.of_nat n + 1 < 100000000 -> Permutation names (map fst (s_dir doc s)) ->
  exists h, create_file_history names = Ok h /\ list_files h = map fst F /\ get_newest h = last_of (map fst F).
Proof.
  intros R Sm P. assert (I : Inv n s F) by (apply (reach_inv mkdiff); auto; lia). destruct (i_folder _ _ _ _ _ _ _ _ _ I) as (N & Q & V & Rd & Jk).
  destruct (folder_listing (map fst F) junk names V Rd Jk) as (h & Ch & C & Pe & L); [eapply inv_separate; eassumption|rewrite P; exact Q|].
  exists h. split; [assumption|]. assert (E : list_files h = map fst F) by (apply chronological_unique; auto; apply (i_sorted _ _ _ _ _ _ _ _ _ I)).
  rewrite <- E. auto.
Qed.

(** ** Branches *)

Lemma branch greater n s F id p d d' : reach n s F -> Z.of_nat n + 2 < 100000000 -> In (p, d) F -> later src d' -> later d d' -> limited op ->
  continuable op (map fst F) p ->
  (cum = true \/ (phase p < maxp)%nat \/ p_prev p = p_control p \/ (exists q, In q (map fst F) /\ earlier (position p) (position q))) ->
  exists r s1 q s2, load id p s = (Ok r, s1) /\ same r d /\ save greater None id d' s1 = (Ok q, s2) /\
    ~ In (filename q) (map fst (s_dir doc s)) /\
    (forall name content, hget name (s_dir doc s) = Some content -> hget name (s_dir doc s2) = Some content) /\
    reach (S n) s2 (F ++ [(q, d')]) /\
    forall id' x dx, In (x, dx) (F ++ [(q, d')]) -> exists r' s3, load id' x s2 = (Ok r', s3) /\ same r' dx.
Proof.
  intros R Sm J Las La Lm Hc Hs. assert (I : Inv n s F) by (apply (reach_inv mkdiff); auto; lia).
  destruct (load_reached n s F id p d R ltac:(lia) J) as (r & El & Sr). set (s1 := St doc (s_dir doc s) (s_cache doc s) (Some (id, p))) in *.
  assert (R1 : reach n s1 F) by (eapply reach_load; eassumption).
  assert (I1 : Inv n s1 F) by (apply (reach_inv mkdiff); auto; lia).
  assert (Ed : edited later src s1 F id d').
  { split; [assumption|]. intros base d0 E J0. cbn [s1 s_cur] in E. inversion E; subst base. now rewrite <- (inv_fun _ _ _ _ _ _ _ _ _ I _ _ _ J J0). }
  destruct (save_reached greater n s1 F id d' R1 ltac:(lia) Ed Lm) as (q & s2 & Es).
  { intros base E. cbn [s1 s_cur] in E. inversion E; subst base. assumption. }
  assert (So : sound_save op s1 F id).
  { destruct Hs as [?|Hs]; [left; assumption|]. right. right. intros base E. cbn [s1 s_cur] in E. inversion E; subst base. exact Hs. }
  assert (R2 : reach (S n) s2 (F ++ [(q, d')])) by (eapply reach_save; eassumption).
  assert (I2 : Inv (S n) s2 (F ++ [(q, d')])) by (apply (reach_inv mkdiff); auto; lia).
  assert (Rq : readable q). { destruct (i_folder _ _ _ _ _ _ _ _ _ I2) as (_ & _ & _ & Rd & _). rewrite map_app in Rd. apply Forall_app in Rd as [_ Rd]. now inversion Rd. }
  destruct (save_newest mkdiff appdiff src op greater id d' (map fst F) junk s1 q s2 (i_folder _ _ _ _ _ _ _ _ _ I1)) as (Nn & _ & Keep & _).
  { intros id0 base E. cbn [s1 s_cur] in E. inversion E; subst. apply (inv_valid _ _ _ _ _ _ _ _ _ I). eapply fst_in, J. }
  { exact Es. } { exact Rq. }
  exists r, s1, q, s2. split; [assumption|]. split; [assumption|]. split; [assumption|]. split; [exact Nn|]. split; [exact Keep|]. split; [assumption|].
  intros id' x dx Jx. destruct (load_reached (S n) s2 _ id' x dx R2 ltac:(lia) Jx) as (r' & El' & Sr'). eauto.
Qed.

(** ** The cache *)

Lemma inv_no_cache n s F : Inv n s F -> Inv n (St doc (s_dir doc s) [] (s_cur doc s)) F.
Proof. intros I. apply inv_cache; [assumption|]. split; [constructor|intros ? ? ? []]. Qed.

Lemma start_same d s s0 p p' s' s0' : map fst (s_dir doc s) = map fst (s_dir doc s0) ->
  start_new doc mkdiff appdiff src op None d s = (Ok p, s') -> start_new doc mkdiff appdiff src op None d s0 = (Ok p', s0') ->
  (forall h np, create_file_history (map fst (s_dir doc s)) = Ok h -> get_newest h = Some np -> 0 <= p_control np) -> p = p'.
Proof.
  intros Ed H H' Pos. unfold start_new in *. rewrite Ed in *. destruct (create_file_history (map fst (s_dir doc s0))) as [h| |]; try discriminate.
  destruct (get_newest h) as [np|] eqn:En.
  - apply bindM_ok in H as (ctl & x & X & H). apply ret_ok in X as [Ec ->]. apply bindM_ok in H' as (ctl' & x & X & H'). apply ret_ok in X as [Ec' ->].
    rewrite Ec in Ec'. apply Ok_inj in Ec'. subst ctl'. apply u32_inc_ok in Ec as [-> _]. specialize (Pos h np eq_refl En).
    apply write_0_ok in H as (? & ? & ? & ? & _ & _ & _ & A & _); [|lia]. apply write_0_ok in H' as (? & ? & ? & ? & _ & _ & _ & A' & _); [|lia]. congruence.
  - apply write_0_ok in H as (? & ? & ? & ? & _ & _ & _ & A & _); [|lia]. apply write_0_ok in H' as (? & ? & ? & ? & _ & _ & _ & A' & _); [|lia]. congruence.
Qed.

Lemma derive_same greater d h from s s0 p p' s' s0' : s_dir doc s = s_dir doc s0 ->
  derive_impl doc mkdiff appdiff src op greater None d h from s = (Ok p, s') -> derive_impl doc mkdiff appdiff src op greater None d h from s0 = (Ok p', s0') -> p = p'.
Proof.
  intros Ed H H'. apply derive_ok in H as (np & ctl & content & vals & k & rest & data & j & anc & deps & composed & s1 & v & data' & header & A1 & A2 & A3 & A4 & A5 & A6 & A7 & A8 & _).
  apply derive_ok in H' as (np' & ctl' & content' & vals' & k' & rest' & data0 & j' & anc' & deps' & composed' & s1' & v' & data0' & header' & B1 & B2 & B3 & B4 & B5 & B6 & B7 & B8 & _).
  rewrite A1 in B1. apply Some_inj in B1. subst np'. rewrite A2 in B2. apply Ok_inj in B2. subst ctl'. rewrite Ed, B3 in A3. apply Some_inj in A3. subst content'.
  rewrite A4 in B4. apply Ok_inj in B4. inversion B4; subst. rewrite A5 in B5. apply Ok_inj in B5. subst data0. rewrite A6 in B6. apply Ok_inj in B6. subst j'.
  rewrite A7 in B7. apply Ok_inj in B7. subst anc'. rewrite A8 in B8. apply Ok_inj in B8. congruence.
Qed.

Lemma save_same greater id d s s0 p p' s' s0' : s_dir doc s = s_dir doc s0 -> s_cur doc s = s_cur doc s0 ->
  (forall h np, create_file_history (map fst (s_dir doc s)) = Ok h -> get_newest h = Some np -> 0 <= p_control np) ->
  save greater None id d s = (Ok p, s') -> save greater None id d s0 = (Ok p', s0') -> p = p'.
Proof.
  intros Ed Ec Pos H H'. unfold save_history_file in *. rewrite <- Ec, <- Ed in H'.
  assert (Fresh : bindM doc (start_new doc mkdiff appdiff src op None d) (fun saved => bindM doc (set_cur doc id saved) (fun _ => ret doc (Ok saved))) s = (Ok p, s') ->
    bindM doc (start_new doc mkdiff appdiff src op None d) (fun saved => bindM doc (set_cur doc id saved) (fun _ => ret doc (Ok saved))) s0 = (Ok p', s0') -> p = p').
  { intros X Y. apply bindM_ok in X as (q & s3 & X & X'). apply bindM_ok in X' as ([] & s4 & _ & W). apply ret_ok in W as [W _]. apply Ok_inj in W. subst q.
    apply bindM_ok in Y as (q & s5 & Y & Y'). apply bindM_ok in Y' as ([] & s6 & _ & W). apply ret_ok in W as [W _]. apply Ok_inj in W. subst q.
    eapply start_same; [|exact X|exact Y|exact Pos]. now rewrite Ed. }
  destruct (s_cur doc s) as [[cur_id base]|]; [|auto]. destruct (id =? cur_id); [|auto].
  destruct (create_file_history (map fst (s_dir doc s))) as [h| |]; try discriminate. destruct (get_newest h) as [np|]; [|auto].
  apply bindM_ok in H as (from & x & X & H). apply ret_ok in X as [Ef ->]. apply bindM_ok in H' as (from' & x & X & H'). apply ret_ok in X as [Ef' ->].
  rewrite Ef in Ef'. apply Ok_inj in Ef'. subst from'.
  apply bindM_ok in H as (q & s3 & X & X'). apply bindM_ok in X' as ([] & s4 & _ & W). apply ret_ok in W as [W _]. apply Ok_inj in W. subst q.
  apply bindM_ok in H' as (q & s5 & Y & Y'). apply bindM_ok in Y' as ([] & s6 & _ & W). apply ret_ok in W as [W _]. apply Ok_inj in W. subst q.
  eapply derive_same; eassumption.
Qed.

Lemma cache_load n s F id p d : reach n s F -> Z.of_nat n + 1 < 100000000 -> In (p, d) F ->
  exists r s1 r' s1', load id p s = (Ok r, s1) /\ load id p (St doc (s_dir doc s) [] (s_cur doc s)) = (Ok r', s1') /\ same r d /\ same r' d /\ same r r'.
Proof.
  intros R Sm J. assert (I : Inv n s F) by (apply (reach_inv mkdiff); auto; lia).
  destruct (load_ok _ _ _ _ Rep _ _ Built _ _ _ _ I ltac:(lia) id p d J) as (r & E & S1). destruct (load_ok _ _ _ _ Rep _ _ Built _ _ _ _ (inv_no_cache n s F I) ltac:(lia) id p d J) as (r' & E' & S2).
  eexists r, _, r', _. split; [exact E|]. split; [exact E'|]. split; [assumption|]. split; [assumption|].
  eapply (same_trans _ _ _ _ Rep); [exact S1|]. now apply (same_sym _ _ _ _ Rep).
Qed.

Lemma cache_save greater n s F id d p s1 : reach n s F -> Z.of_nat n + 2 < 100000000 -> edited later src s F id d -> sound_save op s F id -> limited op ->
  save greater None id d s = (Ok p, s1) ->
  exists s1', save greater None id d (St doc (s_dir doc s) [] (s_cur doc s)) = (Ok p, s1') /\
    forall id' x dx, In (x, dx) (F ++ [(p, d)]) -> exists r s2 r' s2', load id' x s1 = (Ok r, s2) /\ load id' x s1' = (Ok r', s2') /\ same r dx /\ same r' dx.
Proof.
  intros R Sm Ed So Lm E. assert (I : Inv n s F) by (apply (reach_inv mkdiff); auto; lia).
  set (s0 := St doc (s_dir doc s) [] (s_cur doc s)). pose proof (inv_no_cache n s F I) as I0. fold s0 in I0.
  assert (I1 : Inv (S n) s1 (F ++ [(p, d)])). { apply (reach_inv mkdiff); auto; [|lia]. eapply reach_save; eassumption. }
  assert (X : exists p' s1', save greater None id d s0 = (Ok p', s1') /\ Inv (S n) s1' (F ++ [(p', d)])).
  { destruct (save_step mkdiff appdiff same later Rep src op Built junk greater n s0 F id d I0 ltac:(lia) Ed)
      as [(p' & s' & E' & _ & X)|[(E' & base & h & np & Ec & Ch & En & Ph & Nb & G)|(r & pd & saves & E' & Nr & Rc & Mo & Nj)]].
    - exists p', s'. split; [assumption|]. apply X. exact So.
    - exfalso. unfold save_history_file in E. cbn [s0 s_cur s_dir] in Ec, Ch. rewrite Ec, Z.eqb_refl, Ch, En in E. apply bindM_ok in E as (from & x & Y & _).
      apply ret_ok in Y as [Y _]. unfold choose_from in Y. rewrite Ph, Nat.eqb_refl, G in Y. destruct (props_eqb base np) eqn:Eb; [apply props_eqb_true in Eb; congruence|discriminate].
    - exfalso. destruct Built as [b B]. destruct (next_position greater b op saves pd B Rc Mo) as (j & Ej & _); [exact Lm|]. apply (Nj j Ej). }
  destruct X as (p' & s1' & E' & I1'). assert (p = p').
  { eapply (save_same greater id d s s0); [reflexivity|reflexivity| |exact E|exact E']. intros h np Ch En.
    destruct (inv_tree _ _ _ _ _ _ _ _ _ I _ (Permutation_refl _)) as (h' & Ch' & T & Lk). rewrite Ch in Ch'. apply Ok_inj in Ch'. subst h'.
    destruct (tree_of_newest h _ np (inv_all_valid _ _ _ _ _ _ _ _ _ I) T En) as [Jn _]. pose proof (inv_valid _ _ _ _ _ _ _ _ _ I _ Jn) as V. apply V. }
  subst p'. exists s1'. split; [exact E'|]. intros id' x dx J.
  destruct (load_ok _ _ _ _ Rep _ _ Built _ _ _ _ I1 ltac:(lia) id' x dx J) as (r & El & S1). destruct (load_ok _ _ _ _ Rep _ _ Built _ _ _ _ I1' ltac:(lia) id' x dx J) as (r' & El' & S2).
  eexists r, _, r', _. split; [exact El|]. split; [exact El'|]. auto.
Qed.

End Main.

(** the example documents *)
Lemma growing : reproduces added extend eq extends.
Proof.
  split; try congruence.
  - intros a b c [_ (t & ->)] [L (u & ->)]. split; [assumption|]. exists (t ++ u). now rewrite app_assoc.
  - intros a b [L (t & ->)]. exists t. unfold added. rewrite skipn_app, skipn_all, Nat.sub_diag. split; [reflexivity|]. split.
    + unfold zlen in *. rewrite app_length in L. lia.
    + intros a' ->. exists (a ++ t). auto.
Qed.
