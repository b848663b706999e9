(** Background saves. *)
From Verif Require Import Base QueueModel QueueSpec.

Section Queue.
Context {op shared : Type}.
Variable perform : op -> shared -> shared.
Variable x0 : shared.
Notation state := (state op shared).
Notation step := (step perform).
Notation steps := (steps perform).
Notation advance := (advance perform).

Definition holds (t : op * phase) : bool := match snd t with Waiting => false | _ => true end.
Definition counts (t : op * phase) : bool := match snd t with Counted | Performed => true | _ => false end.
(** the job of the worker that is not performed yet *)
Definition running (t : option (op * phase)) : list op :=
  match t with Some (o, (Waiting | Locked | Counted)) => [o] | _ => [] end.

Definition b2n (b : bool) : nat := if b then 1%nat else 0%nat.
Definition total (f : op * phase -> bool) (l : list (op * phase)) : nat := list_sum (map (fun t => b2n (f t)) l).
Lemma total_app f a b : total f (a ++ b) = (total f a + total f b)%nat.
Proof. unfold total. now rewrite map_app, list_sum_app. Qed.
Lemma total_cons f t b : total f (t :: b) = (b2n (f t) + total f b)%nat.
Proof. reflexivity. Qed.
Lemma total_nil f : total f [] = 0%nat.
Proof. reflexivity. Qed.

Record inv (s : state) : Prop := {
  i_lock : total holds (threads s) = b2n (q_lock s);
  i_count : q_counter s = Z.of_nat (total counts (threads s));
  i_order : q_requested s = performed_bg s ++ running (q_worker s) ++ q_queue s;
  i_shared : q_shared s = fold_left (fun x e => perform (snd e) x) (q_log s) x0 }.

Lemma counts_holds l : (total counts l <= total holds l)%nat.
Proof. induction l as [|[o p] l IH]; [reflexivity|]. rewrite !total_cons. assert (b2n (counts (o, p)) <= b2n (holds (o, p)))%nat by (destruct p; cbn; lia). lia. Qed.

Lemma advance_ok t lock counter x t' lock' counter' x' done : advance t lock counter x = Some (t', lock', counter', x', done) ->
  (b2n (holds t) <= b2n lock)%nat ->
  (b2n lock' + b2n (holds t) = b2n lock + total holds (opt t'))%nat /\
  counter' + Z.of_nat (b2n (counts t)) = counter + Z.of_nat (total counts (opt t')) /\
  x' = fold_left (fun x e => perform (snd e) x) (entry false done (fst t)) x /\
  running (Some t) = (if done then [fst t] else []) ++ running t'.
Proof.
  destruct t as [o p]. destruct p; cbn [QueueModel.advance holds counts snd fst b2n]; intros H L.
  - destruct lock; [discriminate|]. apply Some_inj in H. inversion H; subst. cbn. repeat split; lia.
  - apply Some_inj in H. inversion H; subst. cbn in *. repeat split; lia.
  - apply Some_inj in H. inversion H; subst. cbn in *. repeat split; lia.
  - apply Some_inj in H. inversion H; subst. cbn in *. repeat split; lia.
  - apply Some_inj in H. inversion H; subst. cbn in *. destruct lock; cbn in *; repeat split; lia.
Qed.

Lemma performed_app l l' : map (@snd bool op) (filter fst (l ++ l')) = map snd (filter fst l) ++ map snd (filter fst l').
Proof. now rewrite filter_app, map_app. Qed.

Lemma request_inv s o : inv s -> inv (request s o).
Proof. intros [L C O S]. constructor; try assumption. cbn [request q_requested q_worker q_queue]. unfold performed_bg in *. cbn [q_log request]. rewrite O, <- !app_assoc. reflexivity. Qed.

Lemma step_inv s s' : inv s -> step s s' -> inv s'.
Proof.
  intros I H. pose proof I as [L C O S]. inversion H as [s1 o|s1 o|s1 o|s1 o queue Ew Eq|s1 t t' lock counter x done Ew Ea|s1 a t b t' lock counter x done Ec Ea]; subst s1; subst s'.
  - now apply request_inv.
  - unfold request_if_vacant. destruct (q_counter s =? 0); cbn [fst]; [now apply request_inv|assumption].
  - constructor; try assumption.
    + unfold threads in *. cbn [q_worker q_callers q_lock]. rewrite total_app, total_cons. rewrite total_app in L. cbn [holds snd b2n]. lia.
    + unfold threads in *. cbn [q_worker q_callers q_counter]. rewrite total_app, total_cons. rewrite total_app in C. cbn [counts snd b2n]. lia.
  - constructor; try assumption.
    + unfold threads in *. rewrite Ew in L. cbn [q_worker q_callers q_lock opt app] in *. rewrite total_cons. cbn [holds snd b2n]. lia.
    + unfold threads in *. rewrite Ew in C. cbn [q_worker q_callers q_counter opt app] in *. rewrite total_cons. cbn [counts snd b2n]. lia.
    + unfold performed_bg in *. cbn [q_requested q_worker q_queue q_log running]. rewrite O, Ew, Eq. reflexivity.
  - unfold threads in *. rewrite Ew in L, C. cbn [opt app] in L, C. rewrite total_cons in L, C. apply advance_ok in Ea as (E1 & E2 & E3 & E4); [|lia]. constructor.
    + unfold threads. cbn [q_worker q_callers q_lock]. rewrite total_app. lia.
    + unfold threads. cbn [q_worker q_callers q_counter]. rewrite total_app. lia.
    + unfold performed_bg in *. cbn [q_requested q_worker q_queue q_log]. rewrite O, Ew, E4, performed_app. destruct done; cbn [entry filter fst map snd app]; rewrite <- ?app_assoc; cbn [app]; rewrite ?app_nil_r; reflexivity.
    + cbn [q_shared q_log]. rewrite fold_left_app, <- S, E3. destruct done; reflexivity.
  - unfold threads in *. rewrite Ec in L, C. rewrite !total_app, total_cons in L, C. apply advance_ok in Ea as (E1 & E2 & E3 & E4); [|lia]. constructor.
    + unfold threads. cbn [q_worker q_callers q_lock]. rewrite !total_app. lia.
    + unfold threads. cbn [q_worker q_callers q_counter]. rewrite !total_app. lia.
    + unfold performed_bg in *. cbn [q_requested q_worker q_queue q_log]. rewrite O, performed_app. destruct done; cbn [entry filter fst map]; rewrite app_nil_r; reflexivity.
    + cbn [q_shared q_log]. rewrite fold_left_app, <- S, E3. destruct done; reflexivity.
Qed.

Lemma inv_reached s : steps (start x0) s -> inv s.
Proof.
  intros H. remember (start x0) as s0 eqn:E. revert E. induction H as [s|s s1 s2 H IH St]; intros ->.
  - constructor; reflexivity.
  - eapply step_inv; [apply IH; reflexivity|exact St].
Qed.

(** ** Order *)

Lemma in_order s : steps (start x0) s ->
  (exists later, q_requested s = performed_bg s ++ later) /\ q_shared s = fold_left (fun x e => perform (snd e) x) (q_log s) x0.
Proof. intros H. apply inv_reached in H as [_ _ O S]. split; [eauto|exact S]. Qed.

Lemma one_at_a_time s a t b t' c : steps (start x0) s -> threads s = a ++ t :: b ++ t' :: c -> snd t <> Waiting -> snd t' = Waiting.
Proof.
  intros H E Nt. apply inv_reached in H as [L _ _ _]. rewrite E, total_app, total_cons, total_app, total_cons in L. destruct t as [o p], t' as [o' p']. cbn [snd] in *.
  assert (b2n (holds (o, p)) = 1)%nat by (destruct p; [contradiction| | | |]; reflexivity). assert (b2n (q_lock s) <= 1)%nat by (destruct (q_lock s); cbn; lia).
  destruct p'; [reflexivity| | | |]; exfalso; cbn [holds snd b2n] in *; lia.
Qed.

(** ** The vacancy check *)

Lemma check_exact s o : steps (start x0) s -> (snd (request_if_vacant s o) = false <-> exists t, In t (threads s) /\ (snd t = Counted \/ snd t = Performed)).
Proof.
  intros H. apply inv_reached in H as [_ C _ _]. unfold request_if_vacant. rewrite C.
  assert (T : (total counts (threads s) = 0)%nat <-> forall t, In t (threads s) -> counts t = false).
  { generalize (threads s). intros l. induction l as [|t l IH]; [split; [intros _ t []|reflexivity]|]. rewrite total_cons. split.
    - intros Z t' [<-|I]; [destruct (counts t); [discriminate|reflexivity]|]. apply IH; [lia|assumption].
    - intros A. rewrite (A t (or_introl eq_refl)). cbn [b2n plus]. apply IH. intros t' I. apply A. now right. }
  destruct (Z.eqb_spec (Z.of_nat (total counts (threads s))) 0) as [Z|Z]; cbn [snd].
  - split; [discriminate|]. intros ([o' p] & I & P). assert (F : counts (o', p) = false) by (apply T; [lia|assumption]). destruct p, P; cbn in *; discriminate.
  - split; [intros _|reflexivity]. destruct (existsb counts (threads s)) eqn:E.
    + apply existsb_exists in E as ([o' p] & I & Ct). exists (o', p). split; [assumption|]. destruct p; cbn in *; try discriminate; auto.
    + exfalso. apply Z. assert (total counts (threads s) = 0)%nat; [|lia]. apply T. intros t I. destruct (counts t) eqn:Ct; [|reflexivity]. assert (existsb counts (threads s) = true); [|congruence]. apply existsb_exists. eauto.
Qed.

(** ** All requests can be performed *)

Definition left (p : phase) : nat := match p with Waiting => 5 | Locked => 4 | Counted => 3 | Performed => 2 | Uncounted => 1 end%nat.
Definition work (s : state) : nat := (6 * length (q_queue s) + list_sum (map (fun t => left (snd t)) (threads s)))%nat.

Lemma steps_trans s s1 s2 : steps s s1 -> steps s1 s2 -> steps s s2.
Proof. intros A B. induction B; [assumption|]. econstructor; [apply IHB; assumption|assumption]. Qed.

Lemma advance_free t lock counter x : (lock = true -> holds t = true) -> exists t' lock' counter' x' done, advance t lock counter x = Some (t', lock', counter', x', done) /\
  (list_sum (map (fun t => left (snd t)) (opt t')) < left (snd t))%nat.
Proof.
  destruct t as [o p]. destruct p; cbn [holds snd]; intros H; cbn [QueueModel.advance]; try (do 5 eexists; split; [reflexivity|cbn; lia]).
  destruct lock; [discriminate (H eq_refl)|]. do 5 eexists. split; [reflexivity|cbn; lia].
Qed.

Lemma holder l : (1 <= total holds l)%nat -> exists a t b, l = a ++ t :: b /\ holds t = true.
Proof.
  induction l as [|t l IH]; [cbn; lia|]. rewrite total_cons. destruct (holds t) eqn:E; [exists [], t, l; auto|]. cbn [b2n]. intros L. destruct IH as (a & t' & b & -> & Ht); [lia|]. exists (t :: a), t', b. auto.
Qed.

Lemma work_step s : inv s -> work s <> 0%nat -> exists s', step s s' /\ q_requested s' = q_requested s /\ (work s' < work s)%nat.
Proof.
  intros [L C O S] W. assert (Pick : threads s <> [] -> exists a t b, threads s = a ++ t :: b /\ (q_lock s = true -> holds t = true)).
  { intros N. destruct (q_lock s) eqn:E.
    - cbn [b2n] in L. destruct (holder (threads s)) as (a & t & b & Et & Ht); [lia|]. exists a, t, b. auto.
    - destruct (threads s) as [|t l]; [contradiction|]. exists [], t, l. split; [reflexivity|discriminate]. }
  destruct (threads s) as [|t0 l0] eqn:Et.
  - unfold work in W. rewrite Et in W. cbn [map list_sum fold_right] in W. unfold threads in Et. destruct (q_worker s) eqn:Ew; [discriminate|]. cbn [opt app] in Et. destruct (q_queue s) as [|o q] eqn:Eq; [cbn in W; lia|].
    eexists. split; [eapply step_take; eassumption|]. split; [reflexivity|]. unfold work, threads. rewrite Ew, Eq, Et. cbn. lia.
  - destruct Pick as (a & t & b & E & Ht); [discriminate|]. destruct (advance_free t (q_lock s) (q_counter s) (q_shared s) Ht) as (t' & lock' & counter' & x' & done & Ea & Lt).
    rewrite <- Et in E. unfold threads in E. destruct (q_worker s) as [w|] eqn:Ew.
    + destruct a as [|w' a]; cbn [opt app] in E.
      * inversion E; subst w b. eexists. split; [eapply step_worker; eassumption|]. split; [reflexivity|]. unfold work, threads. rewrite Ew. cbn [q_queue q_worker q_callers opt app]. rewrite map_app, list_sum_app. cbn [map list_sum fold_right]. fold (list_sum (map (fun t => left (snd t)) (q_callers s))). lia.
      * inversion E as [[E1 E2]]. eexists. split; [eapply step_caller; eassumption|]. split; [reflexivity|]. unfold work, threads. rewrite Ew. cbn [q_queue q_worker q_callers opt app map]. rewrite E2, !map_app, ?list_sum_app. cbn [map]. change (list_sum (?x :: ?l)) with (x + list_sum l)%nat. rewrite !list_sum_app. change (list_sum (left (snd t) :: map (fun t0 => left (snd t0)) b)) with (left (snd t) + list_sum (map (fun t0 => left (snd t0)) b))%nat. lia.
    + cbn [opt app] in E. eexists. split; [eapply step_caller; eassumption|]. split; [reflexivity|]. unfold work, threads. rewrite Ew. cbn [q_queue q_worker q_callers opt app]. rewrite E, !map_app, !list_sum_app. cbn [map]. change (list_sum (left (snd t) :: map (fun t0 => left (snd t0)) b)) with (left (snd t) + list_sum (map (fun t0 => left (snd t0)) b))%nat. lia.
Qed.

Lemma all_done s : steps (start x0) s -> exists s', steps s s' /\ q_requested s' = q_requested s /\ performed_bg s' = q_requested s.
Proof.
  intros H. apply inv_reached in H. remember (work s) as n eqn:E. revert s H E. induction n as [n IH] using lt_wf_ind. intros s I ->.
  destruct (Nat.eq_dec (work s) 0) as [Z|N].
  - exists s. split; [constructor|]. split; [reflexivity|]. destruct I as [L C O S]. rewrite O. unfold work in Z. destruct (q_queue s); [|cbn in Z; lia]. unfold threads in Z. destruct (q_worker s) as [[o p]|]; [destruct p; cbn in Z; lia|]. cbn. now rewrite app_nil_r.
  - destruct (work_step s I N) as (s1 & St & Er & Lt). destruct (IH (work s1) Lt s1 (step_inv _ _ I St) eq_refl) as (s2 & A & B & P). exists s2. split; [|split; congruence].
    eapply steps_trans; [econstructor; [constructor|exact St]|exact A].
Qed.

End Queue.
