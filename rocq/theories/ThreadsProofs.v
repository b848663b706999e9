(** Proofs about threads that save. *)
From Coq Require Import Permutation.
From Verif Require Import Base StringCompactionModel FileNameModel DocModel PhaseModel TreeModel HistModel HistSpec HistMainProofs RemoveModel FolderModel FolderSpec FolderProofs ThreadsModel ThreadsSpec.

Section Threads.
Context {doc : Type}.
Variable mkdiff : doc -> doc -> res (list Z).
Variable cur : source doc.
Notation step := (step mkdiff cur).
Notation steps := (steps mkdiff cur).
Notation begin_save := (begin_save mkdiff cur).
Notation one_by_one := (one_by_one mkdiff cur).
Notation prepare := (fun o fs => snd (prepare_hash_dir (sv_now o) (so_archive cur) (so_hash cur) fs)).
Notation save_one := (fun o fs => save_dochy_file doc mkdiff (sv_now o) cur (sv_name o) (sv_doc o) (sv_overwrite o) fs).

Lemma begin_exact (o : save doc) fs : save_one o fs =
  match begin_save o fs with inl (h, f, diff) => (Ok tt, write_at h f diff (prepare o fs)) | inr r => (r, prepare o fs) end.
Proof.
  cbv beta. unfold save_dochy_file, ThreadsModel.begin_save. destruct (prepare_hash_dir _ _ _ _) as [[[]| |] fs1]; cbn [snd]; [|reflexivity|reflexivity].
  destruct (resolve _ _ fs1) as [[h f]|]; destruct (_ && _); try reflexivity; destruct (mkdiff _ _); reflexivity.
Qed.

Lemma hset_twice {A} k (a b : A) l : hset k a (hset k b l) = hset k a l.
Proof.
  induction l as [|[x c] l IH]; cbn [hset]; [rewrite FolderProofs.eqb_bytes_refl; reflexivity|].
  destruct (eqb_bytes x k) eqn:E; cbn [hset]; rewrite E; [reflexivity|now rewrite IH].
Qed.
Lemma write_twice h f a b (fs : project) : write_at h f a (write_at h f b fs) = write_at h f a fs.
Proof.
  unfold write_at, in_folder. rewrite map_map. apply map_ext. intros [x d]. cbn [fst snd].
  destruct (x =? h) eqn:E; cbn [fst snd]; rewrite E; [now rewrite hset_twice|reflexivity].
Qed.

Lemma one_by_one_app l l' fs : one_by_one (l ++ l') fs = let '(r, fs1) := one_by_one l fs in let '(r', fs2) := one_by_one l' fs1 in (r ++ r', fs2).
Proof.
  revert fs. induction l as [|o l IH]; intros fs; cbn [app ThreadsSpec.one_by_one]; [now destruct (one_by_one l' fs)|].
  destruct (save_dochy_file _ _ _ _ _ _ _ _) as [r fs1]. rewrite IH. destruct (one_by_one l fs1) as [rs fs2]. now destruct (one_by_one l' fs2).
Qed.
Lemma one_by_one_fst l fs : map fst (fst (one_by_one l fs)) = l.
Proof.
  revert fs. induction l as [|o l IH]; intros fs; cbn [ThreadsSpec.one_by_one]; [reflexivity|].
  destruct (save_dochy_file _ _ _ _ _ _ _ _) as [r fs1]. specialize (IH fs1). destruct (one_by_one l fs1) as [rs fs2]. cbn [fst map] in *. now rewrite IH.
Qed.

(* ------------------------------------------------------------------ *)
Definition holds (p : phase) : bool := match p with Waiting => false | _ => true end.
Definition opened (p : phase) : bool := match p with Opened _ _ _ => true | _ => false end.
Definition b2n (b : bool) : nat := if b then 1%nat else 0%nat.
Definition total (f : phase -> bool) (l : list (save doc * phase)) : nat := list_sum (map (fun t => b2n (f (snd t))) l).
Lemma total_mid f a o p b : total f (a ++ (o, p) :: b) = (b2n (f p) + total f (a ++ b))%nat.
Proof. unfold total. rewrite !map_app, !list_sum_app. cbn [map snd]. change (list_sum (?x :: ?l)) with (x + list_sum l)%nat. lia. Qed.
Lemma total_in f l o p : In (o, p) l -> f p = true -> (1 <= total f l)%nat.
Proof. intros I E. apply in_split in I as (a & b & ->). rewrite total_mid, E. cbn [b2n]. lia. Qed.
Lemma total_le f g l : (forall p, f p = true -> g p = true) -> (total f l <= total g l)%nat.
Proof.
  intros H. unfold total. induction l as [|[o p] l IH]; [constructor|]. cbn [map snd]. change (list_sum (?x :: ?l)) with (x + list_sum l)%nat.
  specialize (H p). destruct (f p); [rewrite H by reflexivity|]; cbn [b2n]; [lia|destruct (g p); cbn [b2n]; lia].
Qed.
Lemma total_zero f l o p : total f l = 0%nat -> In (o, p) l -> f p = false.
Proof. intros E I. destruct (f p) eqn:F; [|reflexivity]. pose proof (total_in f l o p I F). lia. Qed.

Definition results (l : list (save doc * phase)) : list (save doc * res unit) :=
  flat_map (fun t => match snd t with Performed r | Uncounted r => [(fst t, r)] | _ => [] end) l.
Lemma results_mid a o p b : Permutation (results (a ++ (o, p) :: b)) (match p with Performed r | Uncounted r => [(o, r)] | _ => [] end ++ results (a ++ b)).
Proof.
  unfold results. rewrite !flat_map_app. cbn [flat_map fst snd]. rewrite Permutation_app_swap_app. reflexivity.
Qed.

Variable fs0 : project.
Record inv (s : state doc) : Prop := Inv {
  i_log : fst (one_by_one (map fst (th_log s)) fs0) = th_log s;
  i_fs : total opened (th_threads s) = 0%nat -> th_fs s = snd (one_by_one (map fst (th_log s)) fs0);
  i_open : forall o h f diff, In (o, Opened h f diff) (th_threads s) -> let fs := snd (one_by_one (map fst (th_log s)) fs0) in
    begin_save o fs = inl (h, f, diff) /\ th_fs s = write_at h f [] (prepare o fs);
  i_lock : total holds (th_threads s) = b2n (th_lock s);
  i_counter : th_counter s = Z.of_nat (total counted (th_threads s));
  i_poison : th_poisoned s = true -> th_lock s = false;
  i_crashed : th_crashed s <> [] <-> th_poisoned s = true;
  i_started : Permutation (th_started s) (map fst (th_threads s) ++ map fst (th_returned s) ++ th_crashed s ++ th_lost s);
  i_results : Permutation (th_log s) (results (th_threads s) ++ th_returned s ++ map (fun o => (o, Panic)) (th_crashed s));
  i_returned : forall o r, In (o, r) (th_returned s) -> r <> Panic;
  i_lost : th_lost s <> [] -> th_poisoned s = true }.

Lemma holder_alone a o p b lock : total holds (a ++ (o, p) :: b) = b2n lock -> holds p = true -> lock = true /\ total holds (a ++ b) = 0%nat.
Proof. intros H E. rewrite total_mid, E in H. cbn [b2n] in H. destruct lock; cbn [b2n] in H; [split; [reflexivity|lia]|lia]. Qed.
Lemma opened_le l : total holds l = 0%nat -> total opened l = 0%nat.
Proof. intros H. pose proof (total_le opened holds l ltac:(intros []; auto)). lia. Qed.
Lemma no_open_in l o h f diff : total holds l = 0%nat -> ~ In (o, Opened h f diff) l.
Proof. intros H I. pose proof (total_zero holds l _ _ H I). discriminate. Qed.
Lemma in_mid {A} (x y : A) a b : In x (a ++ y :: b) -> x = y \/ In x (a ++ b).
Proof. rewrite !in_app_iff. cbn [In]. intuition. Qed.
Lemma map_mid a (o : save doc) (p : phase) b : Permutation (map fst (a ++ (o, p) :: b)) (o :: map fst (a ++ b)).
Proof. rewrite !map_app. cbn [map fst]. symmetry. apply Permutation_middle. Qed.

Lemma inv_start : inv (start fs0).
Proof.
  constructor; cbn; try reflexivity.
  - intros o h f diff [].
  - split; [intros H; now contradiction H|discriminate].
  - intros o r [].
  - intros H. now contradiction H.
Qed.

Lemma inv_step s s' : inv s -> step s s' -> inv s'.
Proof.
  intros [Lg Fs Op Lk Ct Po Cr St Rs Rt Ls] T. destruct T as
    [s o|s a o b E L P|s a o b E L P|s a o b E|s a o b h f diff E B|s a o b r E B|s a o b h f diff E|s a o b r E|s a o b r E N|s a o b E];
    try rewrite E in *.
  - (* start *)
    constructor; cbn [th_started th_threads th_lock th_poisoned th_counter th_fs th_log th_returned th_crashed th_lost]; auto; try (rewrite total_mid, app_nil_r; cbn [holds opened counted b2n]; auto).
    + intros o' h f diff I. apply in_mid in I as [I|I]; [discriminate I|]. rewrite app_nil_r in I. exact (Op _ _ _ _ I).
    + rewrite map_app. cbn [map fst]. rewrite <- Permutation_cons_append, <- app_assoc. cbn [app]. rewrite <- Permutation_middle. now constructor.
    + rewrite results_mid, app_nil_r. exact Rs.
  - (* lock *)
    rewrite total_mid in Lk, Ct. cbn [holds counted b2n] in Lk, Ct. rewrite L in Lk. cbn [b2n plus] in Lk.
    constructor; cbn [th_started th_threads th_lock th_poisoned th_counter th_fs th_log th_returned th_crashed th_lost]; auto; try (rewrite total_mid; cbn [holds opened counted b2n]; auto).
    + intros _. apply Fs. rewrite total_mid. cbn [opened b2n]. rewrite (opened_le _ Lk). reflexivity.
    + intros o' h f diff I. apply in_mid in I as [I|I]; [discriminate I|]. now apply no_open_in in I.
    + congruence.
    + rewrite St, !map_mid. reflexivity.
    + rewrite Rs, !results_mid. reflexivity.
  - (* poisoned *)
    rewrite total_mid in Lk, Ct. cbn [holds counted b2n] in Lk, Ct.
    constructor; cbn [th_started th_threads th_lock th_poisoned th_counter th_fs th_log th_returned th_crashed th_lost]; auto.
    + intros H. apply Fs. rewrite total_mid. cbn [opened b2n]. rewrite H. reflexivity.
    + intros o' h f diff I. apply (Op o' h f diff). rewrite in_app_iff in *. cbn [In]. tauto.
    + rewrite St, map_mid. rewrite !app_assoc. rewrite <- Permutation_cons_append. reflexivity.
    + rewrite Rs, results_mid. reflexivity.
  - (* count *)
    destruct (holder_alone _ _ _ _ _ Lk eq_refl) as [L Z]. rewrite total_mid in Ct. cbn [counted b2n] in Ct.
    constructor; cbn [th_started th_threads th_lock th_poisoned th_counter th_fs th_log th_returned th_crashed th_lost]; auto; try (rewrite total_mid; cbn [holds opened counted b2n]; auto).
    + intros _. apply Fs. rewrite total_mid. cbn [opened b2n]. rewrite (opened_le _ Z). reflexivity.
    + intros o' h f diff I. apply in_mid in I as [I|I]; [discriminate I|]. now apply no_open_in in I.
    + rewrite Z, L. reflexivity.
    + rewrite Ct. lia.
    + rewrite St, !map_mid. reflexivity.
    + rewrite Rs, !results_mid. reflexivity.
  - (* open *)
    destruct (holder_alone _ _ _ _ _ Lk eq_refl) as [L Z]. rewrite total_mid in Ct. cbn [counted b2n] in Ct.
    assert (F0 : th_fs s = snd (one_by_one (map fst (th_log s)) fs0)) by (apply Fs; rewrite total_mid; cbn [opened b2n]; rewrite (opened_le _ Z); reflexivity).
    constructor; cbn [th_started th_threads th_lock th_poisoned th_counter th_fs th_log th_returned th_crashed th_lost]; auto; try (rewrite total_mid; cbn [holds opened counted b2n]; auto).
    + intros H. lia.
    + intros o' h' f' diff' I. apply in_mid in I as [I|I]; [|now apply no_open_in in I]. injection I as -> -> -> ->. cbv zeta. rewrite <- F0. split; [exact B|reflexivity].
    + rewrite Z, L. reflexivity.
    + rewrite St, !map_mid. reflexivity.
    + rewrite Rs, !results_mid. reflexivity.
  - (* fail *)
    destruct (holder_alone _ _ _ _ _ Lk eq_refl) as [L Z]. rewrite total_mid in Ct. cbn [counted b2n] in Ct.
    assert (F0 : th_fs s = snd (one_by_one (map fst (th_log s)) fs0)) by (apply Fs; rewrite total_mid; cbn [opened b2n]; rewrite (opened_le _ Z); reflexivity).
    assert (X : one_by_one (map fst (th_log s ++ [(o, r)])) fs0 = (th_log s ++ [(o, r)], prepare o (th_fs s))).
    { rewrite map_app. cbn [map fst]. rewrite one_by_one_app. destruct (one_by_one (map fst (th_log s)) fs0) as [rs fs1]. cbn [fst snd] in *. subst rs fs1. cbn [ThreadsSpec.one_by_one].
      pose proof (begin_exact o (th_fs s)) as Y. cbv beta in Y. rewrite Y, B. reflexivity. }
    constructor; cbn [th_started th_threads th_lock th_poisoned th_counter th_fs th_log th_returned th_crashed th_lost]; auto; try (rewrite total_mid; cbn [holds opened counted b2n]; auto).
    + rewrite X. reflexivity.
    + rewrite X. reflexivity.
    + intros o' h f diff I. apply in_mid in I as [I|I]; [discriminate I|]. now apply no_open_in in I.
    + rewrite Z, L. reflexivity.
    + rewrite St, !map_mid. reflexivity.
    + rewrite <- Permutation_cons_append, Rs, !results_mid. reflexivity.
  - (* write *)
    destruct (holder_alone _ _ _ _ _ Lk eq_refl) as [L Z]. rewrite total_mid in Ct. cbn [counted b2n] in Ct.
    destruct (Op o h f diff) as [B F0]; [apply in_or_app; right; now left|]. cbv beta in F0.
    assert (X : one_by_one (map fst (th_log s ++ [(o, Ok tt)])) fs0 = (th_log s ++ [(o, Ok tt)], write_at h f diff (th_fs s))).
    { rewrite map_app. cbn [map fst]. rewrite one_by_one_app. destruct (one_by_one (map fst (th_log s)) fs0) as [rs fs1]. cbn [fst snd] in *. subst rs. cbn [ThreadsSpec.one_by_one].
      pose proof (begin_exact o fs1) as Y. cbv beta in Y. rewrite Y, B, F0, write_twice. reflexivity. }
    constructor; cbn [th_started th_threads th_lock th_poisoned th_counter th_fs th_log th_returned th_crashed th_lost]; auto; try (rewrite total_mid; cbn [holds opened counted b2n]; auto).
    + rewrite X. reflexivity.
    + rewrite X. reflexivity.
    + intros o' h' f' diff' I. apply in_mid in I as [I|I]; [discriminate I|]. now apply no_open_in in I.
    + rewrite Z, L. reflexivity.
    + rewrite St, !map_mid. reflexivity.
    + rewrite <- Permutation_cons_append, Rs, !results_mid. reflexivity.
  - (* uncount *)
    destruct (holder_alone _ _ _ _ _ Lk eq_refl) as [L Z]. rewrite total_mid in Ct. cbn [counted b2n] in Ct.
    constructor; cbn [th_started th_threads th_lock th_poisoned th_counter th_fs th_log th_returned th_crashed th_lost]; auto; try (rewrite total_mid; cbn [holds opened counted b2n]; auto).
    + intros _. apply Fs. rewrite total_mid. cbn [opened b2n]. rewrite (opened_le _ Z). reflexivity.
    + intros o' h f diff I. apply in_mid in I as [I|I]; [discriminate I|]. now apply no_open_in in I.
    + rewrite Z, L. reflexivity.
    + rewrite Ct. lia.
    + rewrite St, !map_mid. reflexivity.
    + rewrite Rs, !results_mid. reflexivity.
  - (* unlock *)
    destruct (holder_alone _ _ _ _ _ Lk eq_refl) as [L Z]. rewrite total_mid in Ct. cbn [counted b2n] in Ct.
    constructor; cbn [th_started th_threads th_lock th_poisoned th_counter th_fs th_log th_returned th_crashed th_lost]; auto.
    + intros _. apply Fs. rewrite total_mid. cbn [opened b2n]. rewrite (opened_le _ Z). reflexivity.
    + intros o' h f diff I. now apply no_open_in in I.
    + rewrite St, map_mid, (map_app fst (th_returned s)). cbn [map fst]. rewrite <- (app_assoc (map fst (th_returned s))). cbn [app]. rewrite <- (Permutation_middle (map fst (th_returned s))), <- Permutation_middle. reflexivity.
    + rewrite Rs, results_mid. cbn [app]. rewrite <- (app_assoc (th_returned s)). cbn [app]. rewrite <- (Permutation_middle (th_returned s)), <- Permutation_middle. reflexivity.
    + intros o' r' I. apply in_app_or in I as [I|[I|[]]]; [now apply Rt in I|injection I as <- <-; exact N].
  - (* unwind *)
    destruct (holder_alone _ _ _ _ _ Lk eq_refl) as [L Z]. rewrite total_mid in Ct. cbn [counted b2n] in Ct.
    constructor; cbn [th_started th_threads th_lock th_poisoned th_counter th_fs th_log th_returned th_crashed th_lost]; auto.
    + intros _. apply Fs. rewrite total_mid. cbn [opened b2n]. rewrite (opened_le _ Z). reflexivity.
    + intros o' h f diff I. now apply no_open_in in I.
    + split; [reflexivity|]. intros _ X. now apply app_eq_nil in X as [_ X].
    + rewrite St, map_mid. rewrite <- (app_assoc (th_crashed s)). cbn [app]. rewrite <- (Permutation_middle (th_crashed s)), <- (Permutation_middle (map fst (th_returned s))), <- Permutation_middle. reflexivity.
    + rewrite Rs, results_mid, map_app. cbn [map app]. rewrite !app_assoc. rewrite <- Permutation_cons_append. reflexivity.
Qed.

Lemma inv_reached s : steps (start fs0) s -> inv s.
Proof. intros H. remember (start fs0) as s0. revert Heqs0. induction H as [s|s s1 s2 _ IH T]; intros ->; [apply inv_start|]. eapply inv_step; eauto. Qed.

(* ------------------------------------------------------------------ *)

Lemma none_open_zero (s : state doc) : none_open s -> total opened (th_threads s) = 0%nat.
Proof.
  intros N. destruct (total opened (th_threads s)) eqn:E; [reflexivity|]. exfalso. unfold none_open in N. revert E N. generalize (th_threads s). intros l E N.
  induction l as [|[o p] l IH]; [discriminate E|]. unfold total in E, IH. cbn [map snd] in E. change (list_sum (?x :: ?l)) with (x + list_sum l)%nat in E.
  destruct p; try (apply IH; [exact E|intros o' h' f' diff' I; apply (N o' h' f' diff'); now right]). apply (N o h f diff). now left.
Qed.

Lemma serial s : steps (start fs0) s ->
  fst (one_by_one (map fst (th_log s)) fs0) = th_log s /\ (none_open s -> th_fs s = snd (one_by_one (map fst (th_log s)) fs0)) /\
  Permutation (th_log s) (pending s ++ th_returned s ++ map (fun o => (o, Panic)) (th_crashed s)) /\
  Permutation (th_started s) (map fst (th_threads s) ++ map fst (th_returned s) ++ th_crashed s ++ th_lost s).
Proof.
  intros H. apply inv_reached in H. split; [apply i_log; exact H|]. split; [intros N; apply i_fs; [exact H|now apply none_open_zero]|]. split; [exact (i_results _ H)|exact (i_started _ H)].
Qed.

Lemma exclusive s a o p b : steps (start fs0) s -> th_threads s = a ++ (o, p) :: b -> p <> Waiting -> forall o' p', In (o', p') (a ++ b) -> p' = Waiting.
Proof.
  intros H E N o' p' I. apply inv_reached in H. pose proof (i_lock _ H) as L. rewrite E in L. destruct (holder_alone _ _ _ _ _ L) as [_ Z]; [destruct p; [contradiction|reflexivity..]|].
  pose proof (total_zero _ _ _ _ Z I) as X. destruct p'; [reflexivity|discriminate X..].
Qed.

Lemma counter_exact s : steps (start fs0) s ->
  (queued_threads s = 0 \/ queued_threads s = 1) /\ (queued_threads s = 1 <-> exists o p, In (o, p) (th_threads s) /\ counted p = true).
Proof.
  intros H. apply inv_reached in H. unfold queued_threads. rewrite (i_counter _ H). pose proof (i_lock _ H) as L.
  pose proof (total_le counted holds (th_threads s) ltac:(intros []; auto)) as C. assert (D : (b2n (th_lock s) <= 1)%nat) by (destruct (th_lock s); cbn [b2n]; lia). split; [lia|]. split.
  - intros X. assert (Y : total counted (th_threads s) <> 0%nat) by lia. clear - Y. induction (th_threads s) as [|[o p] l IH]; [now contradiction Y|].
    destruct (counted p) eqn:E; [exists o, p; split; [now left|exact E]|]. destruct IH as (o' & p' & I & F); [|exists o', p'; split; [now right|exact F]].
    unfold total in *. cbn [map snd] in Y. rewrite E in Y. exact Y.
  - intros (o & p & I & E). pose proof (total_in _ _ _ _ I E). lia.
Qed.

(** every thread can go on, or another one holds the lock and can *)
Definition weight (p : phase) : nat := match p with Waiting => 6 | Locked => 5 | Counted => 4 | Opened _ _ _ => 3 | Performed _ => 2 | Uncounted _ => 1 end%nat.
Definition work (s : state doc) : nat := list_sum (map (fun t => weight (snd t)) (th_threads s)).
Lemma work_mid a (o : save doc) p b : list_sum (map (fun t => weight (snd t)) (a ++ (o, p) :: b)) = (weight p + list_sum (map (fun t : save doc * phase => weight (snd t)) (a ++ b)))%nat.
Proof. rewrite !map_app, !list_sum_app. cbn [map snd]. change (list_sum (?x :: ?l)) with (x + list_sum l)%nat. lia. Qed.

Lemma progress s : inv s -> th_threads s <> [] -> exists s', step s s' /\ th_started s' = th_started s /\ (work s' < work s)%nat.
Proof.
  intros H N.
  assert (X : exists a o p b, th_threads s = a ++ (o, p) :: b /\ (p = Waiting -> th_lock s = false)).
  { destruct (th_lock s) eqn:L.
    - pose proof (i_lock _ H) as T. rewrite L in T. cbn [b2n] in T. clear - T. assert (Y : total holds (th_threads s) <> 0%nat) by lia. clear T. revert Y.
      generalize (th_threads s). intros l Y. induction l as [|[o p] l IH]; [now contradiction Y|]. destruct (holds p) eqn:E.
      + exists [], o, p, l. split; [reflexivity|]. intros ->. discriminate E.
      + destruct IH as (a & o' & p' & b & -> & F); [unfold total in *; cbn [map snd] in Y; rewrite E in Y; exact Y|]. exists ((o, p) :: a), o', p', b. split; [reflexivity|exact F].
    - destruct (th_threads s) as [|[o p] l]; [contradiction|]. exists [], o, p, l. split; reflexivity. }
  destruct X as (a & o & p & b & E & F). unfold work. rewrite E, work_mid. destruct p as [| | |h f diff|r|r].
  - specialize (F eq_refl). destruct (th_poisoned s) eqn:P.
    + eexists. split; [eapply step_poisoned; eassumption|]. split; [reflexivity|]. cbn [th_threads weight]. lia.
    + eexists. split; [eapply step_lock; eassumption|]. split; [reflexivity|]. cbn [th_threads]. rewrite work_mid. cbn [weight]. lia.
  - eexists. split; [eapply step_count; eassumption|]. split; [reflexivity|]. cbn [th_threads]. rewrite work_mid. cbn [weight]. lia.
  - destruct (begin_save o (th_fs s)) as [[[h f] diff]|r] eqn:B.
    + eexists. split; [eapply step_open; eassumption|]. split; [reflexivity|]. cbn [th_threads]. rewrite work_mid. cbn [weight]. lia.
    + eexists. split; [eapply step_fail; eassumption|]. split; [reflexivity|]. cbn [th_threads]. rewrite work_mid. cbn [weight]. lia.
  - eexists. split; [eapply step_write; eassumption|]. split; [reflexivity|]. cbn [th_threads]. rewrite work_mid. cbn [weight]. lia.
  - eexists. split; [eapply step_uncount; eassumption|]. split; [reflexivity|]. cbn [th_threads]. rewrite work_mid. cbn [weight]. lia.
  - destruct r as [[]| |].
    + eexists. split; [eapply step_unlock; [eassumption|discriminate]|]. split; [reflexivity|]. cbn [th_threads weight]. lia.
    + eexists. split; [eapply step_unlock; [eassumption|discriminate]|]. split; [reflexivity|]. cbn [th_threads weight]. lia.
    + eexists. split; [eapply step_unwind; eassumption|]. split; [reflexivity|]. cbn [th_threads weight]. lia.
Qed.

Lemma ends s : steps (start fs0) s -> exists s', steps (start fs0) s' /\ steps s s' /\ th_started s' = th_started s /\ th_threads s' = [].
Proof.
  intros H. remember (work s) as n. assert (L : (work s <= n)%nat) by lia. clear Heqn. revert s H L. induction n as [|n IH]; intros s H L.
  - exists s. split; [exact H|]. split; [constructor|]. split; [reflexivity|]. unfold work in L. destruct (th_threads s) as [|[o p] l]; [reflexivity|]. cbn [map snd] in L. change (list_sum (?x :: ?l)) with (x + list_sum l)%nat in L. destruct p; cbn [weight] in L; lia.
  - destruct (th_threads s) as [|t l] eqn:E; [exists s; split; [exact H|]; split; [constructor|]; split; [reflexivity|exact E]|].
    destruct (progress s (inv_reached _ H)) as (s1 & T & St & W); [congruence|]. destruct (IH s1) as (s2 & R & R' & St' & F); [eapply steps_step; eassumption|lia|].
    exists s2. split; [exact R|]. split; [|split; [congruence|exact F]]. clear - T R'. revert T. induction R' as [|? ? ? ? IHR ?]; intros T; [eapply steps_step; [constructor|exact T]|eapply steps_step; [now apply IHR|eassumption]].
Qed.

(** a poisoned lock stays so, and nothing is saved any more *)
Lemma poisoned_stays s s' : inv s -> th_poisoned s = true -> steps s s' -> th_poisoned s' = true /\ th_log s' = th_log s /\ th_fs s' = th_fs s /\ th_returned s' = th_returned s.
Proof.
  intros H P T. assert (X : inv s' /\ th_poisoned s' = true /\ th_log s' = th_log s /\ th_fs s' = th_fs s /\ th_returned s' = th_returned s); [|tauto].
  induction T as [s|s s1 s2 T IH T1]; [tauto|]. destruct (IH H P) as (H1 & P1 & L1 & F1 & R1). split; [eapply inv_step; eassumption|].
  pose proof (i_poison _ H1 P1) as Lk. pose proof (i_lock _ H1) as Hl. rewrite Lk in Hl. cbn [b2n] in Hl.
  destruct T1 as [s1 o|s1 a o b E L P'|s1 a o b E L P'|s1 a o b E|s1 a o b h f diff E B|s1 a o b r E B|s1 a o b h f diff E|s1 a o b r E|s1 a o b r E N|s1 a o b E];
    cbn [th_poisoned th_log th_fs th_returned]; try (rewrite E in Hl; rewrite total_mid in Hl; cbn [holds b2n] in Hl; lia); auto.
Qed.

(* ------------------------------------------------------------------ *)
(** * One file *)

Lemma save_keeps (o : save doc) fs h f : read_at h f fs <> None -> read_at h f (snd (save_one o fs)) <> None.
Proof.
  intros N. cbv beta. pose proof (begin_exact o fs) as Y. cbv beta in Y. rewrite Y.
  assert (K : read_at h f (prepare o fs) <> None).
  { cbv beta. destruct (prepare_hash_dir _ _ _ _) as [r fs1] eqn:E. destruct (prepared _ _ _ _ _ _ E) as (P & _). destruct (read_at h f fs) as [c|] eqn:R; [|contradiction]. cbn [snd]. rewrite (P _ _ _ R). discriminate. }
  destruct (begin_save o fs) as [[[h' f'] diff]|r]; cbn [snd]; [|exact K]. rewrite read_write. destruct ((h =? h') && eqb_bytes f' f) eqn:X; [|exact K].
  apply andb_prop in X as [X _]. apply Z.eqb_eq in X. subst h'. unfold read_at in K. cbv beta in K. destruct (get_folder h _); [discriminate|contradiction].
Qed.
Lemma all_keep l : forall fs h f, read_at h f fs <> None -> read_at h f (snd (one_by_one l fs)) <> None.
Proof.
  induction l as [|o l IH]; intros fs h f N; [exact N|]. cbn [ThreadsSpec.one_by_one]. pose proof (save_keeps o fs h f N) as K. cbv beta in K.
  destruct (save_dochy_file _ _ _ _ _ _ _ _) as [r fs1]. cbn [snd] in K. specialize (IH fs1 h f K). destruct (one_by_one l fs1). exact IH.
Qed.
Lemma saved_there (o : save doc) fs : plain (sv_name o) -> fst (save_one o fs) = Ok tt -> read_at (so_hash cur) (sv_name o) (snd (save_one o fs)) <> None.
Proof.
  intros P. cbv beta. destruct (save_dochy_file _ _ _ _ _ _ _ _) as [r fs'] eqn:E. cbn [fst snd]. intros ->. destruct (saved _ _ _ _ _ _ _ _ P E) as (fs1 & diff & Ep & _ & ->).
  destruct (prepared _ _ _ _ _ _ Ep) as (_ & _ & _ & Pk & _). destruct (Pk eq_refl) as [G _]. rewrite read_write, Z.eqb_refl, FolderProofs.eqb_bytes_refl. cbn [andb]. destruct (get_folder _ fs1); [discriminate|contradiction].
Qed.

(** the results of a part of the saves, one after the other from where the others stopped *)
Lemma log_split l a b fs : fst (one_by_one (map fst l) fs) = l -> l = a ++ b -> exists fs1, one_by_one (map fst a) fs = (a, fs1) /\ fst (one_by_one (map fst b) fs1) = b /\
  snd (one_by_one (map fst l) fs) = snd (one_by_one (map fst b) fs1).
Proof.
  intros E ->. rewrite map_app, one_by_one_app in *. pose proof (one_by_one_fst (map fst a) fs) as A. destruct (one_by_one (map fst a) fs) as [ra fs1]. exists fs1. cbn [fst] in A.
  pose proof (one_by_one_fst (map fst b) fs1) as B. destruct (one_by_one (map fst b) fs1) as [rb fs2]. cbn [fst snd] in *.
  assert (Le : length ra = length a) by (apply (f_equal (@length _)) in A; rewrite !map_length in A; exact A).
  assert (ra = a /\ rb = b) as [-> ->]; [|auto]. clear - E Le. revert a E Le. induction ra as [|x ra IH]; intros [|y a] E Le; try discriminate Le; cbn [app] in E; [split; [reflexivity|exact E]|].
  injection E as -> E. injection Le as Le. destruct (IH a E Le) as [-> ->]. auto.
Qed.
Lemma log_cons o r b fs : fst (one_by_one (map fst ((o, r) :: b)) fs) = (o, r) :: b -> exists fs1, save_one o fs = (r, fs1) /\ fst (one_by_one (map fst b) fs1) = b /\
  snd (one_by_one (map fst ((o, r) :: b)) fs) = snd (one_by_one (map fst b) fs1).
Proof.
  cbv beta. cbn [map fst ThreadsSpec.one_by_one]. destruct (save_dochy_file _ _ _ _ _ _ _ _) as [r' fs1]. destruct (one_by_one (map fst b) fs1) as [rb fs2] eqn:E. cbn [fst snd]. intros X. injection X as -> ->.
  exists fs1. rewrite E. auto.
Qed.

Lemma only_once s a o1 b o2 c : steps (start fs0) s -> th_log s = a ++ (o1, Ok tt) :: b ++ (o2, Ok tt) :: c -> sv_name o1 = sv_name o2 -> plain (sv_name o1) -> sv_overwrite o2 = true.
Proof.
  intros H E Nm P. destruct (serial s H) as (Lg & _). destruct (log_split _ _ _ _ Lg E) as (fs1 & _ & L1 & _). destruct (log_cons _ _ _ _ L1) as (fs2 & S1 & L2 & _).
  destruct (log_split _ b ((o2, Ok tt) :: c) _ L2 eq_refl) as (fs3 & B & L3 & _). destruct (log_cons _ _ _ _ L3) as (fs4 & S2 & _ & _). cbv beta in S1, S2.
  pose proof (saved_there o1 fs1 P) as Th. cbv beta in Th. rewrite S1 in Th. specialize (Th eq_refl). cbn [snd] in Th. pose proof (all_keep (map fst b) _ _ _ Th) as K. rewrite B in K. cbn [snd] in K.
  destruct (sv_overwrite o2); [reflexivity|]. exfalso. destruct (no_overwrite _ _ _ _ _ _ _ _ S2) as [_ X]. destruct (read_at (so_hash cur) (sv_name o1) fs3) as [c'|] eqn:R; [|contradiction].
  apply (X (so_hash cur) (sv_name o2) c'); [apply resolve_plain; now rewrite <- Nm|now rewrite <- Nm|reflexivity].
Qed.

Lemma others_keep b : forall fs n c, fst (one_by_one (map fst b) fs) = b -> (forall o r, In (o, r) b -> plain (sv_name o)) -> (forall o, In (o, Ok tt) b -> sv_name o <> n) ->
  read_at (so_hash cur) n fs = Some c -> read_at (so_hash cur) n (snd (one_by_one (map fst b) fs)) = Some c.
Proof.
  induction b as [|[o r] b IH]; intros fs n c L P N R; [exact R|]. destruct (log_cons _ _ _ _ L) as (fs1 & S & L1 & ->). cbv beta in S. apply IH; [exact L1|intros o' r' I; apply (P o' r'); now right|intros o' I; apply N; now right|].
  destruct (list_eq_dec Z.eq_dec (sv_name o) n) as [E|E].
  - pose proof (begin_exact o fs) as Y. cbv beta in Y. rewrite S in Y. destruct (begin_save o fs) as [[[h f] diff]|r'].
    + apply pair_equal_spec in Y as [-> _]. exfalso. apply (N o); [now left|exact E].
    + apply pair_equal_spec in Y as [_ ->]. destruct (prepare_hash_dir _ _ _ _) as [r2 fs2] eqn:Ep. destruct (prepared _ _ _ _ _ _ Ep) as (K & _). now apply K.
  - eapply save_frame; [apply (P o r); now left|exact S| |exact R]. intros X. injection X as X. now apply E.
Qed.

Lemma last_saved appdiff archive_root adjust same later s a o b : reproduces mkdiff appdiff same later -> later (so_root cur) (sv_doc o) ->
  steps (start fs0) s -> none_open s -> th_log s = a ++ (o, Ok tt) :: b -> plain (sv_name o) ->
  (forall o' r, In (o', r) b -> plain (sv_name o')) -> (forall o', In (o', Ok tt) b -> sv_name o' <> sv_name o) ->
  exists r, load_dochy_file doc appdiff archive_root adjust cur (so_hash cur) (sv_name o) (th_fs s) = Ok r /\ same r (sv_doc o).
Proof.
  intros Rep La H No E P Pb Nb. destruct (serial s H) as (Lg & Fs & _). rewrite (Fs No). destruct (log_split _ _ _ _ Lg E) as (fs1 & _ & L1 & ->). destruct (log_cons _ _ _ _ L1) as (fs2 & S & L2 & ->). cbv beta in S.
  destruct (round_trip _ _ archive_root adjust _ _ Rep _ _ _ _ _ _ _ La P S) as (r & Lo & Sa). exists r. split; [|exact Sa]. unfold load_dochy_file in *. rewrite Z.eqb_refl in *. cbn [bind] in *.
  destruct (read_at (so_hash cur) (sv_name o) fs2) as [c|] eqn:R; [|discriminate Lo]. rewrite (others_keep b fs2 (sv_name o) c L2 Pb Nb R). exact Lo.
Qed.
End Threads.
