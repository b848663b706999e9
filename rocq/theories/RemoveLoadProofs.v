(** What removing old files leaves: chains stay, files load as before. *)
From Verif Require Import Base CompactionModel StringCompactionModel StringCompactionProofs FileNameModel FileNameSpec FileNameProofs
  DocModel DiffProofs PhaseModel TreeModel TreeSpec TreeProofs HistModel HistSpec HistProofs ChainProofs HistInvProofs HistSaveProofs
  RemoveModel RemoveSpec RemoveProofs.

(** ** What the program computes is a chain *)

Section Anc.
Variable maxp : nat.
Variable cum : bool.
Notation chain := (chain maxp cum).
Notation prev_pos := (prev_pos maxp cum).

Lemma parents_chain fs h : looks h fs -> Forall valid_props fs -> forall n p l, parents n h p = Ok l -> p_order p <> [] -> (phase p <= maxp)%nat ->
  (phase p =? maxp)%nat && cum && (0 <? order_last p) = false -> chain fs p (rev l ++ [p]).
Proof.
  intros Lk V. induction n as [|n IH]; intros p l H N Ph B; cbn [parents] in H; destruct (2 <=? length (p_order p))%nat eqn:L2; try discriminate.
  - apply Ok_inj in H. subst l. apply chain_root. unfold ChainProofs.prev_pos. now rewrite B, L2.
  - destruct (get_parent h p) as [q|] eqn:G; [|discriminate]. apply bind_ok in H as (l' & H & E). apply Ok_inj in E. subst l. unfold get_parent in G. apply Lk in G as [Iq Pq].
    cbn [rev]. apply chain_step with q; [unfold ChainProofs.prev_pos; rewrite B, L2; congruence|assumption|]. apply Nat.leb_le in L2.
    assert (Oq : p_order q = order_base p) by (unfold position in Pq; congruence). destruct (order_length p N) as [A1 A2].
    assert (Vq : valid_props q) by (rewrite Forall_forall in V; auto). assert (Phq : phase q = (phase p - 1)%nat). { unfold phase at 1. rewrite Oq. lia. }
    apply IH; [exact H|apply Vq|lia|]. destruct (Nat.eqb_spec (phase q) maxp); [lia|reflexivity].
  - apply Ok_inj in H. subst l. apply chain_root. unfold ChainProofs.prev_pos. now rewrite B, L2.
Qed.

Lemma siblings_chain fs h : looks h fs -> Forall valid_props fs -> cum = true -> forall n p a r b, valid_props p -> phase p = maxp ->
  order_last p = Z.of_nat n -> siblings h (order_base p) n p = Ok (a, r) -> parents (length (p_order r)) h r = Ok b -> chain fs p (rev (a ++ b) ++ [p]).
Proof.
  intros Lk V Cu. induction n as [|n IH]; intros p a r b Vp Ph L S Pa; cbn [siblings] in S.
  - apply Ok_inj in S. inversion S as [[Ea Er]]. subst a r. cbn [app]. eapply parents_chain; [exact Lk|exact V|exact Pa|apply Vp|lia|]. rewrite L. cbn. now rewrite andb_false_r.
  - destruct (get_props h (p_prev p) (order_base p ++ [Z.of_nat n])) as [q|] eqn:G; [|discriminate]. apply bind_ok in S as ([a' r'] & S & E). apply Ok_inj in E. inversion E as [[Ea Er]]. subst a r'.
    apply Lk in G as [Iq Pq]. assert (Oq : p_order q = order_base p ++ [Z.of_nat n]) by (unfold position in Pq; congruence).
    assert (Bq : order_base q = order_base p) by (unfold order_base at 1; rewrite Oq; apply removelast_last).
    assert (Lq : order_last q = Z.of_nat n) by (unfold order_last; rewrite Oq; apply last_last).
    assert (Vq : valid_props q) by (rewrite Forall_forall in V; auto). assert (N : p_order p <> []) by apply Vp.
    cbn [app rev]. apply chain_step with q.
    + unfold ChainProofs.prev_pos. rewrite Ph, Nat.eqb_refl, Cu, L. cbn [andb]. destruct (Z.ltb_spec 0 (Z.of_nat (Datatypes.S n))); [|lia]. rewrite Pq. do 3 f_equal. f_equal. lia.
    + assumption.
    + apply (IH q a' r b Vq); [|assumption|rewrite Bq; exact S|exact Pa].
      destruct (order_length p N) as [_ A]. destruct (order_length q) as [_ A']; [apply Vq|]. congruence.
Qed.

Lemma ancestors_chain fs h p l : looks h fs -> Forall valid_props fs -> valid_props p -> (phase p <= maxp)%nat ->
  create_ancestors h p maxp cum = Ok l -> chain fs p l.
Proof.
  intros Lk V Vp Ph H. unfold create_ancestors, create_ancestors_rev in H. assert (N : p_order p <> []) by apply Vp.
  assert (L0 : 0 <= order_last p). { destruct Vp as (_ & _ & O & _). rewrite (order_split p N) in O. apply Forall_app in O as [_ O]. inversion O; subst. unfold u32 in *. lia. }
  apply bind_ok in H as (l0 & H & E). apply Ok_inj in E. subst l.
  assert (H' : ('(l, q) <- (if (phase p =? maxp)%nat && cum then siblings h (order_base p) (Z.to_nat (order_last p)) p else Ok ([], p)) ;
      l' <- parents (length (p_order q)) h q ; Ok (p :: l ++ l')) = Ok l0) by (destruct (p_order p); [congruence|exact H]).
  clear H. apply bind_ok in H' as ([a r] & S & H). apply bind_ok in H as (b & Pa & E). apply Ok_inj in E. subst l0. cbn [rev].
  destruct ((phase p =? maxp)%nat && cum) eqn:B.
  - apply andb_prop in B as [B1 B2]. apply Nat.eqb_eq in B1. eapply siblings_chain; try eassumption. lia.
  - apply Ok_inj in S. inversion S as [[Ea Er]]. subst a r. cbn [app]. eapply parents_chain; try eassumption. now rewrite B.
Qed.

(** ** The kept files are closed *)

Section Closed.
Variable h : tree.
Variable fs : list props.
Hypothesis Tok : tree_ok [] h.
Hypothesis Lk : looks h fs.
Hypothesis V : Forall valid_props fs.
Hypothesis Fl : forall q, In q (flatten h) <-> In q fs.
Hypothesis Small : forall p, In p fs -> (phase p <= maxp)%nat.
Hypothesis Sep : separate fs.
Notation R := (remover_from maxp cum h).

Lemma vp p : In p fs -> valid_props p.
Proof. intros I. rewrite Forall_forall in V. auto. Qed.
Lemma vn p : In p fs -> p_order p <> [].
Proof. intros I. apply (vp p I). Qed.
Lemma file_get p : In p fs -> item_get (position p) h = Some p.
Proof. intros I. unfold position. rewrite <- get_props_item by now apply vn. apply Lk. auto. Qed.
Lemma depth p : In p fs -> (length (p_order p) <= S maxp)%nat.
Proof. intros I. specialize (Small p I). unfold phase in Small. lia. Qed.

Lemma cue_file c p : In p fs -> cue_path c = position p -> c_order c <> [] ->
  exists it, cue_item R c = Some it /\ r_prop it = Some p /\ (cum = false -> r_cumulative it = false) /\
    (r_cumulative it = true -> phase p = maxp \/ S (phase p) = maxp) /\ (phase p = maxp -> r_cumulative it = cum).
Proof.
  intros I E N. assert (Eo : cue_order c = p_order p) by (unfold cue_path, position in E; congruence).
  destruct (cue_complete maxp cum h Tok c p N) as (it & A & B & C & D & G); [rewrite Eo; now apply depth|rewrite E; now apply file_get|].
  exists it. destruct (order_length p (vn p I)) as [L1 L2]. repeat split; auto; intros X.
  - apply D in X. rewrite Eo in X. lia.
  - apply G; [rewrite Eo; lia|]. intros q Iq. apply Fl in Iq. now apply depth.
Qed.

Lemma cue_at p : In p fs -> exists c, cue_path c = position p /\ c_order c <> [].
Proof.
  intros I. exists (Cue (p_control p) (p_order p) None). unfold cue_path, cue_order. cbn. rewrite app_nil_r. split; [reflexivity|now apply vn].
Qed.

(** one step of the loop *)
Lemma step K p c' q : step_ok maxp cum h K None -> In p fs -> In (position p) K ->
  (forall it, (cum = false -> r_cumulative it = false) -> (r_cumulative it = true -> phase p = maxp \/ S (phase p) = maxp) -> (phase p = maxp -> r_cumulative it = cum) -> next_cue it p = Some c') ->
  In q fs -> cue_path c' = position q -> c_order c' <> [] -> In (position q) K.
Proof.
  intros St I Ik Nx Iq Eq No. destruct (cue_at p I) as (c & Ec & Nc). destruct (cue_file c p I Ec Nc) as (it & A & B & C & D & G).
  destruct (cue_file c' q Iq Eq No) as (it' & A' & B' & _). rewrite <- Ec in Ik.
  destruct (St c it p c' it' q Ik A B (Nx it C D G) A' B') as [X|X]; [now rewrite <- Eq|discriminate].
Qed.

Hypothesis Reg : regular maxp cum fs.

Lemma base_nonempty p : In p fs -> (2 <= length (p_order p))%nat -> order_base p <> [] /\ phase p = length (order_base p).
Proof. intros I L. destruct (order_length p (vn p I)) as [A B]. split; [|exact B]. intros E. rewrite E in A. cbn in A. lia. Qed.

Lemma order_last_nonneg p : In p fs -> 0 <= order_last p.
Proof. intros I. destruct (vp p I) as (_ & _ & O & N & _). rewrite (order_split p N) in O. apply Forall_app in O as [_ O]. inversion O; subst. unfold u32 in *. lia. Qed.

Lemma parent_cue p q : position q = p_prev p :: order_base p -> cue_path (Cue (p_prev p) (order_base p) None) = position q.
Proof. intros E. unfold cue_path, cue_order. cbn. rewrite app_nil_r. congruence. Qed.

Lemma kept_parent K : step_ok maxp cum h K None -> forall n p q, (Z.to_nat (order_last p) <= n)%nat -> In p fs -> In (position p) K -> In q fs ->
  (phase p < maxp)%nat -> (2 <= length (p_order p))%nat -> position q = p_prev p :: order_base p -> In (position q) K.
Proof.
  intros St. induction n as [|n IH]; intros p q Ln I Ik Iq Ph L2 E; destruct (base_nonempty p I L2) as [Nb Pb]; pose proof (order_last_nonneg p I) as L0.
  - apply (step K p (Cue (p_prev p) (order_base p) None) q St I Ik); auto using parent_cue. intros it _ _ _. unfold next_cue.
    replace (order_last p) with 0 by lia. cbn [Z.eqb negb]. rewrite andb_false_r. destruct (Nat.eqb_spec (length (p_order p)) 1); [lia|reflexivity].
  - destruct (Z.eqb_spec (order_last p) 0) as [L|L].
    + apply (IH p q); auto. lia.
    + destruct (cue_at p I) as (c & Ec & Nc). destruct (cue_file c p I Ec Nc) as (it & A & B & C & D & G). destruct (r_cumulative it) eqn:Rc.
      * assert (Cu : cum = true). { destruct cum; [reflexivity|]. now specialize (C eq_refl). }
        destruct (order_length p (vn p I)) as [Q1 Q2]. destruct (D eq_refl) as [X|X]; [lia|]. destruct (Reg Cu) as (_ & _ & R3). destruct (R3 p I X) as (sib & Is & Es & Ps); [lia|lia|].
        assert (Os : p_order sib = order_base p ++ [order_last p - 1]) by (unfold position in Es; congruence).
        assert (Bs : order_base sib = order_base p) by (unfold order_base at 1; rewrite Os; apply removelast_last).
        assert (Ls : order_last sib = order_last p - 1) by (unfold order_last at 1; rewrite Os; apply last_last).
        assert (Lsib : length (p_order sib) = length (p_order p)). { rewrite Os, app_length. destruct (order_length p (vn p I)) as [Q _]. cbn [length]. lia. }
        apply (IH sib q); auto; try lia.
        -- rewrite <- Ec in Ik.
           assert (Cp : cue_path (Cue (p_control p) (order_base p) (Some (order_last p - 1))) = position sib) by (rewrite Es; reflexivity).
           destruct (cue_file (Cue (p_control p) (order_base p) (Some (order_last p - 1))) sib Is Cp Nb) as (it' & A' & B' & _).
           destruct (St c it p (Cue (p_control p) (order_base p) (Some (order_last p - 1))) it' sib Ik A B) as [Y|Y]; auto; [|congruence|discriminate].
           unfold next_cue. rewrite Rc. destruct (Z.eqb_spec (order_last p) 0); [lia|]. reflexivity.
        -- unfold phase in *. lia.
        -- rewrite Bs, Ps. exact E.
      * rewrite <- Ec in Ik. destruct (cue_file (Cue (p_prev p) (order_base p) None) q Iq (parent_cue p q E) Nb) as (it' & A' & B' & _).
        destruct (St c it p (Cue (p_prev p) (order_base p) None) it' q Ik A B) as [Y|Y]; auto; [|now rewrite <- (parent_cue p q E)|discriminate].
        unfold next_cue. rewrite Rc. cbn [andb]. destruct (Nat.eqb_spec (length (p_order p)) 1); [lia|reflexivity].
Qed.

Lemma kept_prev K p q : step_ok maxp cum h K None -> In p fs -> In (position p) K -> prev_pos p = Some (position q) -> In q fs -> In (position q) K.
Proof.
  intros St I Ik P Iq. pose proof (order_last_nonneg p I) as L0. unfold ChainProofs.prev_pos in P. destruct ((phase p =? maxp)%nat && cum && (0 <? order_last p)) eqn:B.
  - apply Some_inj in P. apply andb_prop in B as [B B3]. apply andb_prop in B as [B1 B2]. apply Nat.eqb_eq in B1. apply Z.ltb_lt in B3.
    destruct (Reg B2) as (R1 & R2 & _). specialize (R2 p I B1 B3). apply (step K p (Cue (p_control p) (order_base p) (Some (order_last p - 1))) q St I Ik); auto.
    + intros it C D G. unfold next_cue. rewrite (G B1), B2. destruct (Z.eqb_spec (order_last p) 0); [lia|]. reflexivity.
    + rewrite <- P, R2. reflexivity.
    + cbn [c_order]. apply base_nonempty; [assumption|]. unfold phase in B1. lia.
  - destruct (2 <=? length (p_order p))%nat eqn:L2; [|discriminate]. apply Nat.leb_le in L2. apply Some_inj in P. destruct (Nat.eq_dec (phase p) maxp) as [Ep|Np].
    + apply (step K p (Cue (p_prev p) (order_base p) None) q St I Ik); auto using parent_cue; [|cbn [c_order]; now apply base_nonempty].
      intros it C D G. unfold next_cue. rewrite Ep, Nat.eqb_refl in B. cbn [andb] in B. rewrite (G Ep).
      assert (X : cum && negb (order_last p =? 0) = false). { destruct cum; [|reflexivity]. cbn [andb] in *. apply Z.ltb_ge in B. destruct (Z.eqb_spec (order_last p) 0); [reflexivity|lia]. }
      rewrite X. destruct (Nat.eqb_spec (length (p_order p)) 1); [lia|reflexivity].
    + eapply (kept_parent K St _ p q (le_n _)); auto. pose proof (Small p I). lia.
Qed.

Lemma kept_chain K p l : step_ok maxp cum h K None -> chain fs p l -> In p fs -> In (position p) K -> forall q, In q l -> In q fs /\ In (position q) K.
Proof.
  intros St. induction 1 as [p H|p b l H I C IH]; intros Ip Ik q Q.
  - destruct Q as [->|[]]. auto.
  - apply in_app_or in Q as [Q|[->|[]]]; [|auto]. apply IH; auto. eapply kept_prev; eassumption.
Qed.

End Closed.

Lemma removable_complete K r : forall it path x p, descend r it = Some x -> r_prop x = Some p -> ~ In (path ++ r) K -> In p (item_removable K path it).
Proof.
  induction r as [|k r IH]; intros it path x p D P N; destruct it as [c q ch]; cbn [descend] in D; cbn [item_removable]; apply in_or_app.
  - apply Some_inj in D. subst x. cbn [r_prop] in P. subst q. rewrite app_nil_r in N. apply not_kept_spec in N. rewrite N. left. now left.
  - right. cbn [r_children] in D. destruct (bt_get k ch) as [i|] eqn:E; [|discriminate]. apply in_flat_map. exists (k, i). split; [now apply bt_get_in|].
    apply (IH i (path ++ [k]) x p D P). rewrite <- app_assoc. exact N.
Qed.
Lemma get_removable_complete h K c it p : cue_item (remover_from maxp cum h) c = Some it -> r_prop it = Some p -> ~ In (cue_path c) K ->
  In p (get_removable (remover_from maxp cum h) K).
Proof.
  unfold cue_item. destruct (bt_get (c_ctl c) (remover_from maxp cum h)) as [items|] eqn:E; [|discriminate]. unfold get_item_from_cue, cue_path, cue_order.
  destruct (c_order c) as [|k r]; [discriminate|]. destruct (bt_get k items) as [i|] eqn:Ei; [|discriminate]. intros D P N. apply bt_get_in in E, Ei.
  unfold get_removable. apply in_flat_map. exists (c_ctl c, items). split; [exact E|]. apply in_flat_map. exists (k, i). split; [exact Ei|].
  cbn [fst snd]. eapply (removable_complete K _ i [c_ctl c; k]); [exact D|exact P|exact N].
Qed.

End Anc.
