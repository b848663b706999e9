(** The files a history file depends on, as a chain from file to file. *)
From Verif Require Import Base CompactionModel FileNameModel FileNameSpec FileNameProofs
  DocModel PhaseModel TreeModel TreeSpec TreeProofs HistModel HistSpec HistProofs.

Lemma firstn_app_le {A} n (a b : list A) : (n <= length a)%nat -> firstn n (a ++ b) = firstn n a.
Proof. intros L. rewrite firstn_app. replace (n - length a)%nat with 0%nat by lia. cbn [firstn]. apply app_nil_r. Qed.

Lemma nth_error_snoc {A} (l : list A) x i y : nth_error (l ++ [x]) i = Some y ->
  ((i < length l)%nat /\ nth_error l i = Some y) \/ (i = length l /\ y = x).
Proof.
  intros H. destruct (Nat.lt_ge_cases i (length l)) as [L|L].
  - rewrite nth_error_app1 in H by assumption. auto.
  - rewrite nth_error_app2 in H by assumption. destruct (i - length l)%nat as [|k] eqn:E; [|destruct k; discriminate].
    apply Some_inj in H. right. split; [lia|auto].
Qed.

Lemma snoc_split {A} (l : list A) x l1 q l2 : l ++ [x] = l1 ++ q :: l2 ->
  (l2 = [] /\ q = x /\ l1 = l) \/ exists l2', l2 = l2' ++ [x] /\ l = l1 ++ q :: l2'.
Proof.
  destruct l2 as [|y l2] using rev_ind; intros E.
  - left. apply app_inj_tail in E as [-> ->]. auto.
  - right. exists l2. rewrite app_comm_cons, app_assoc in E. apply app_inj_tail in E as [-> ->]. auto.
Qed.

Lemma order_length p : p_order p <> [] -> length (p_order p) = S (length (order_base p)) /\ phase p = length (order_base p).
Proof. intros N. unfold phase. rewrite (order_split p N) at 1 2. rewrite app_length. cbn [length]. lia. Qed.

Section Chains.
Variable maxp : nat.
Variable cum : bool.

(** the position of the file that a file is a difference to *)
Definition prev_pos (p : props) : option (list Z) :=
  if (phase p =? maxp)%nat && cum && (0 <? order_last p) then Some (p_prev p :: order_base p ++ [order_last p - 1])
  else if (2 <=? length (p_order p))%nat then Some (p_prev p :: order_base p) else None.

(** the chain of a file, oldest first *)
Inductive chain (fs : list props) : props -> list props -> Prop :=
| chain_root p : prev_pos p = None -> chain fs p [p]
| chain_step p q l : prev_pos p = Some (position q) -> In q fs -> chain fs q l -> chain fs p (l ++ [p]).

(** a tree finds exactly the files *)
Definition looks (h : tree) (fs : list props) : Prop :=
  forall c o q, get_props h c o = Some q <-> In q fs /\ position q = c :: o.

Lemma get_props_nil h c : get_props h c [] = None.
Proof. unfold get_props. destruct (bt_get c (children h)); reflexivity. Qed.

Lemma tree_looks h fs : Forall valid_props fs -> separate fs -> tree_of h fs -> looks h fs.
Proof.
  intros V S T c o q. split; [intros G; apply (tree_of_get h fs V T _ _ _ G)|]. intros [I P].
  destruct T as (fs' & Q & ->). assert (V' : Forall valid_props fs') by (eapply Permutation_Forall; [symmetry; eassumption|assumption]).
  assert (N : o <> []). { rewrite Forall_forall in V. destruct (V q I) as (_ & _ & _ & N & _). unfold position in P. inversion P. congruence. }
  rewrite get_props_item by assumption. apply history_get; [assumption|]. split; [|assumption].
  apply separate_last; [eapply separate_permute; eassumption|]. eapply Permutation_in; [symmetry; eassumption|assumption].
Qed.

Lemma position_inj fs p q : separate fs -> In p fs -> In q fs -> position p = position q -> p = q.
Proof.
  intros S I J E. unfold separate in S. induction fs as [|x fs IH]; [destruct I|]. cbn [map] in S. inversion S as [|? ? N S']; subst.
  destruct I as [->|I]; destruct J as [->|J]; auto.
  - exfalso. apply N. rewrite E. now apply in_map.
  - exfalso. apply N. rewrite <- E. now apply in_map.
Qed.

Lemma chain_last fs p l : chain fs p l -> exists l', l = l' ++ [p].
Proof. intros C. destruct C as [p H|p q l H I C]; [exists []; reflexivity|eauto]. Qed.

Lemma chain_det fs p l : separate fs -> chain fs p l -> forall l', chain fs p l' -> l = l'.
Proof.
  intros S. induction 1 as [p H|p q l H I C IH]; intros l' C'; inversion C' as [? H'|? q' m H' I' C'']; subst; try congruence.
  f_equal. apply IH. assert (q' = q); [|congruence]. apply (position_inj fs); auto. congruence.
Qed.

Lemma chain_weaken fs fs' p l : chain fs p l -> (forall q, In q l -> In q fs -> In q fs') -> chain fs' p l.
Proof.
  induction 1 as [p H|p q l H I C IH]; intros W; [now constructor|]. apply chain_step with q; auto.
  - apply W; [|assumption]. destruct (chain_last _ _ _ C) as [l' ->]. apply in_or_app. left. apply in_or_app. right. now left.
  - apply IH. intros x X. apply W. apply in_or_app. now left.
Qed.
Lemma chain_mono fs fs' p l : chain fs p l -> incl fs fs' -> chain fs' p l.
Proof. intros C W. eapply chain_weaken; [exact C|]. auto. Qed.

Lemma chain_in fs p l q : chain fs p l -> In q l -> q = p \/ In q fs.
Proof.
  intros C. revert q. induction C as [p H|p q l H I C IH]; intros x X; [destruct X as [->|[]]; auto|].
  apply in_app_or in X as [X|[->|[]]]; [|auto]. destruct (IH x X) as [->|?]; auto.
Qed.

Lemma chain_prefix fs p l : chain fs p l -> forall l1 q l2, l = l1 ++ q :: l2 -> chain fs q (l1 ++ [q]).
Proof.
  induction 1 as [p H|p q l H I C IH]; intros l1 x l2 E.
  - destruct l1 as [|y l1]; [|destruct l1; discriminate]. cbn [app] in E. inversion E; subst. now constructor.
  - pose proof E as E0. apply snoc_split in E as [(-> & -> & ->)|(l2' & -> & ->)]; [now apply chain_step with q|].
    eapply IH. reflexivity.
Qed.

(** neighbours in a chain *)
Lemma chain_first fs p l : chain fs p l -> forall x l2, l = x :: l2 -> prev_pos x = None.
Proof.
  intros C x l2 ->. pose proof (chain_prefix _ _ _ C [] x l2 eq_refl) as C'. cbn [app] in C'.
  remember [x] as m eqn:E. destruct C' as [x' H|x' q l H I D]; [congruence|]. destruct (chain_last _ _ _ D) as [l' ->]. destruct l'; [|destruct l']; discriminate.
Qed.
Lemma chain_next fs p l : chain fs p l -> forall l1 q x l2, l = l1 ++ q :: x :: l2 -> prev_pos x = Some (position q) /\ In q fs.
Proof.
  intros C l1 q x l2 E. replace (l1 ++ q :: x :: l2) with ((l1 ++ [q]) ++ x :: l2) in E by (rewrite <- app_assoc; reflexivity).
  pose proof (chain_prefix _ _ _ C _ _ _ E) as C'. remember ((l1 ++ [q]) ++ [x]) as m eqn:E'. destruct C' as [x H|x r l' H I D].
  - destruct l1; [|destruct l1]; discriminate.
  - apply app_inj_tail in E' as [-> _]. destruct (chain_last _ _ _ D) as [l'' Q]. apply app_inj_tail in Q as [_ ->]. auto.
Qed.

(** ** A chain is what the program computes *)

Lemma chain_parents fs h : looks h fs -> Forall valid_props fs -> forall n p l, chain fs p l -> p_order p <> [] -> (phase p <= maxp)%nat ->
  (length (p_order p) <= n)%nat -> (phase p =? maxp)%nat && cum && (0 <? order_last p) = false ->
  exists l', l = l' ++ [p] /\ parents n h p = Ok (rev l').
Proof.
  intros Lk V. induction n as [|n IH]; intros p l C N Ph Ln B; [destruct (p_order p); [congruence|cbn [length] in Ln; lia]|].
  cbn [parents]. destruct C as [p H|p q l H I C]; unfold prev_pos in H; rewrite B in H.
  - destruct (2 <=? length (p_order p))%nat; [discriminate|]. exists []. auto.
  - destruct (2 <=? length (p_order p))%nat eqn:L2; [|discriminate]. apply Some_inj in H. exists l. split; [reflexivity|].
    assert (G : get_parent h p = Some q) by (unfold get_parent; apply Lk; auto). rewrite G. apply Nat.leb_le in L2.
    assert (Oq : p_order q = order_base p) by (unfold position in H; congruence). destruct (order_length p N) as [A1 A2].
    assert (Vq : valid_props q) by (rewrite Forall_forall in V; auto). assert (Pq : phase q = (phase p - 1)%nat). { unfold phase at 1. rewrite Oq. lia. }
    destruct (IH q l C) as (l' & -> & E); [apply Vq|lia|rewrite Oq; lia| |].
    { destruct (Nat.eqb_spec (phase q) maxp); [lia|reflexivity]. }
    rewrite E. cbn [bind]. now rewrite rev_app_distr.
Qed.

Lemma chain_siblings fs h : looks h fs -> Forall valid_props fs -> cum = true -> forall n p l, chain fs p l -> valid_props p -> phase p = maxp ->
  order_last p = Z.of_nat n -> exists l' a r b, l = l' ++ [p] /\ siblings h (order_base p) n p = Ok (a, r) /\
    parents (length (p_order r)) h r = Ok b /\ rev l' = a ++ b.
Proof.
  intros Lk V Cu. induction n as [|n IH]; intros p l C Vp Ph L.
  - destruct (chain_parents fs h Lk V (length (p_order p)) p l C) as (l' & -> & E); [apply Vp|lia|lia|rewrite L; cbn; now rewrite andb_false_r|].
    exists l', [], p, (rev l'). auto.
  - assert (N : p_order p <> []) by apply Vp. assert (P : prev_pos p = Some (p_prev p :: order_base p ++ [Z.of_nat n])).
    { unfold prev_pos. rewrite Ph, Nat.eqb_refl, Cu, L. cbn [andb]. destruct (Z.ltb_spec 0 (Z.of_nat (S n))); [|lia].
      do 3 f_equal. f_equal. lia. }
    destruct C as [p H|p q l H I C]; [congruence|]. rewrite P in H. apply Some_inj in H.
    assert (G : get_props h (p_prev p) (order_base p ++ [Z.of_nat n]) = Some q) by (apply Lk; auto).
    assert (Oq : p_order q = order_base p ++ [Z.of_nat n]) by (unfold position in H; congruence).
    assert (Bq : order_base q = order_base p) by (unfold order_base at 1; rewrite Oq; apply removelast_last).
    assert (Lq : order_last q = Z.of_nat n) by (unfold order_last; rewrite Oq; apply last_last).
    assert (Vq : valid_props q) by (rewrite Forall_forall in V; auto).
    destruct (IH q l C Vq) as (l' & a & r & b & -> & S & Pa & E); [|assumption|].
    { destruct (order_length p N) as [_ A]. destruct (order_length q) as [_ A']; [apply Vq|]. congruence. }
    exists (l' ++ [q]), (q :: a), r, b. split; [reflexivity|]. cbn [siblings]. rewrite G, <- Bq, S. split; [reflexivity|]. split; [assumption|].
    rewrite rev_app_distr. cbn [rev app]. now rewrite E.
Qed.

Lemma chain_ancestors fs h p l : looks h fs -> Forall valid_props fs -> valid_props p -> (phase p <= maxp)%nat -> chain fs p l ->
  create_ancestors h p maxp cum = Ok l.
Proof.
  intros Lk V Vp Ph C. unfold create_ancestors, create_ancestors_rev. assert (N : p_order p <> []) by apply Vp.
  assert (L0 : 0 <= order_last p). { destruct Vp as (_ & _ & O & _). rewrite (order_split p N) in O. apply Forall_app in O as [_ O]. inversion O; subst. unfold u32 in *. lia. }
  replace (match p_order p with [] => Ok [p] | _ => _ end) with
    ('(l, q) <- (if (phase p =? maxp)%nat && cum then siblings h (order_base p) (Z.to_nat (order_last p)) p else Ok ([], p)) ;
      l' <- parents (length (p_order q)) h q ; Ok (p :: l ++ l')) by (destruct (p_order p); [congruence|reflexivity]).
  destruct ((phase p =? maxp)%nat && cum) eqn:B.
  - apply andb_prop in B as [B1 B2]. apply Nat.eqb_eq in B1.
    destruct (chain_siblings fs h Lk V B2 (Z.to_nat (order_last p)) p l C Vp B1 ltac:(lia)) as (l' & a & r & b & -> & S & Pa & E).
    rewrite S. cbn [bind]. rewrite Pa. cbn [bind]. rewrite <- E. cbn [rev]. now rewrite rev_involutive.
  - cbn [bind]. destruct (chain_parents fs h Lk V (length (p_order p)) p l C N Ph (le_n _)) as (l' & -> & E); [now rewrite B|].
    rewrite E. cbn [bind rev app]. now rewrite rev_involutive.
Qed.

(** ** Phases and orders along a chain *)

Lemma chain_step_kind p q : p_order p <> [] -> p_order q <> [] -> (phase p <= maxp)%nat -> prev_pos p = Some (position q) ->
  p_control q = p_prev p /\
  ((cum = true /\ phase p = maxp /\ phase q = maxp /\ order_base q = order_base p /\ p_order q = order_base p ++ [order_last p - 1]) \/
   (p_order q = order_base p /\ phase p = S (phase q))).
Proof.
  intros N Nq Ph H. unfold prev_pos in H. destruct ((phase p =? maxp)%nat && cum && (0 <? order_last p)) eqn:B.
  - apply andb_prop in B as [B _]. apply andb_prop in B as [B1 B2]. apply Nat.eqb_eq in B1. apply Some_inj in H. unfold position in H.
    assert (Oq : p_order q = order_base p ++ [order_last p - 1]) by congruence. split; [congruence|]. left.
    assert (Bq : order_base q = order_base p) by (unfold order_base at 1; rewrite Oq; apply removelast_last).
    destruct (order_length p N) as [_ A]. destruct (order_length q Nq) as [_ A']. repeat split; auto; congruence.
  - destruct (2 <=? length (p_order p))%nat eqn:L2; [|discriminate]. apply Nat.leb_le in L2. apply Some_inj in H. unfold position in H.
    split; [congruence|]. right. assert (Oq : p_order q = order_base p) by congruence. split; [assumption|].
    destruct (order_length p N) as [A B']. unfold phase at 2. rewrite Oq. lia.
Qed.

Lemma chain_root_kind p : p_order p <> [] -> prev_pos p = None -> phase p = 0%nat.
Proof.
  intros N H. unfold prev_pos in H. destruct ((phase p =? maxp)%nat && cum && (0 <? order_last p)); [discriminate|].
  destruct (2 <=? length (p_order p))%nat eqn:L2; [discriminate|]. apply Nat.leb_gt in L2. unfold phase. lia.
Qed.

Lemma chain_phase fs p l : Forall valid_props fs -> chain fs p l -> p_order p <> [] -> (phase p <= maxp)%nat ->
  phase p = Nat.min (length l - 1) maxp /\ forall i q, nth_error l i = Some q -> phase q = Nat.min i maxp.
Proof.
  intros V. induction 1 as [p H|p q l H I C IH]; intros N Ph.
  - pose proof (chain_root_kind p N H) as P. split; [cbn [length]; lia|]. intros [|[|i]] q E; try discriminate. apply Some_inj in E. subst. lia.
  - assert (Nq : p_order q <> []) by (rewrite Forall_forall in V; apply (V q I)).
    destruct (chain_last _ _ _ C) as [l0 El]. assert (L1 : (1 <= length l)%nat) by (rewrite El, app_length; cbn [length]; lia).
    destruct (chain_step_kind p q N Nq Ph H) as [_ K].
    assert (Pq : (phase q <= maxp)%nat) by lia. destruct (IH Nq Pq) as [A B].
    assert (X : phase p = Nat.min (length l) maxp) by lia.
    split; [rewrite app_length; cbn [length]; lia|]. intros i x E. apply nth_error_snoc in E as [[_ E]|[-> ->]]; auto.
Qed.

Lemma chain_order fs p l : Forall valid_props fs -> chain fs p l -> p_order p <> [] -> (phase p <= maxp)%nat ->
  forall i q, nth_error l i = Some q -> (i < maxp)%nat -> (i <= phase p)%nat -> p_order q = firstn (S i) (p_order p).
Proof.
  intros V. induction 1 as [p H|p q l H I C IH]; intros N Ph i x E Lt Le.
  - destruct i as [|[|i]]; try discriminate. apply Some_inj in E. subst x. pose proof (chain_root_kind p N H) as P. unfold phase in P.
    rewrite firstn_all2; [reflexivity|lia].
  - assert (Nq : p_order q <> []) by (rewrite Forall_forall in V; apply (V q I)).
    destruct (chain_last _ _ _ C) as [l0 El]. assert (L1 : (1 <= length l)%nat) by (rewrite El, app_length; cbn [length]; lia).
    destruct (chain_step_kind p q N Nq Ph H) as [_ K].
    assert (Pq : (phase q <= maxp)%nat) by lia. destruct (chain_phase _ _ _ V C Nq Pq) as [A _].
    destruct (order_length p N) as [O1 O2].
    apply nth_error_snoc in E as [[Li E]|[-> ->]].
    + rewrite (IH Nq Pq i x E Lt) by lia. destruct K as [(_ & P1 & P2 & Bq & Oq)|[Oq Pp]].
      * rewrite Oq. rewrite (order_split p N). rewrite !firstn_app_le by lia. reflexivity.
      * rewrite Oq. rewrite (order_split p N). rewrite firstn_app_le by lia. reflexivity.
    + destruct K as [(_ & P1 & P2 & _)|[Oq Pp]]; [lia|]. rewrite firstn_all2 by lia. reflexivity.
Qed.

Lemma chain_length_plain fs p l : Forall valid_props fs -> cum = false -> chain fs p l -> p_order p <> [] -> (phase p <= maxp)%nat ->
  length l = S (phase p).
Proof.
  intros V Cu. induction 1 as [p H|p q l H I C IH]; intros N Ph.
  - now rewrite (chain_root_kind p N H).
  - assert (Nq : p_order q <> []) by (rewrite Forall_forall in V; apply (V q I)).
    destruct (chain_step_kind p q N Nq Ph H) as [_ [(? & _)|[_ K]]]; [congruence|]. rewrite app_length, IH by (assumption || lia). cbn [length]. lia.
Qed.

End Chains.
