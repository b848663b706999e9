(** Applying files on several threads gives the result of applying them in order. *)
From Coq Require Import Permutation.
From Verif Require Import Base DocModel HistModel ApplyModel.

Section Apply.
Context {doc D : Type}.
Variable prepare : list Z -> res D.
Variable apply : doc -> D -> res doc.
Variable dir : hmap (list Z).
Notation appdiff := (appdiff prepare apply).
Notation st := (apply_items_st prepare apply dir).
Notation apply_several := (apply_several apply).
Notation receive := (receive apply).
Notation step := (step prepare apply dir).
Notation run := (run prepare apply dir).
Notation open := (open_diff_file dir).

Lemma st_result root paths : fst (st root paths) = apply_items doc appdiff dir root paths.
Proof.
  revert root. induction paths as [|p r IH]; intros root; [reflexivity|]. cbn [apply_items_st apply_items]. destruct (apply_item doc appdiff dir root p) as [d| |]; cbn [bind]; [|reflexivity|reflexivity].
  rewrite <- IH. destruct (st d r). reflexivity.
Qed.

Lemma st_app a b : forall root, st root (a ++ b) = match st root a with (Ok r, s) => let '(x, s') := st r b in (x, s ++ s') | e => e end.
Proof.
  induction a as [|p a IH]; intros root; [cbn [app apply_items_st]; now destruct (st root b)|]. cbn [app apply_items_st].
  destruct (apply_item doc appdiff dir root p) as [d| |]; [|reflexivity|reflexivity]. rewrite IH. destruct (st d a) as [[r| |] s]; [|reflexivity|reflexivity]. destruct (st r b). reflexivity.
Qed.

Definition item (paths : list (list Z)) (i : nat) (d : D) : Prop := exists p v, nth_error paths i = Some p /\ open p = Ok v /\ prepare v = Ok d.
Definition opened (paths : list (list Z)) (i : nat) (v : list Z) : Prop := exists p, nth_error paths i = Some p /\ open p = Ok v.

Lemma firstn_S {A} (l : list A) k x : nth_error l k = Some x -> firstn (S k) l = firstn k l ++ [x].
Proof. revert k. induction l as [|y l IH]; intros [|k] H; try discriminate; cbn in *; [congruence|]. now rewrite (IH k H). Qed.
Lemma split_at {A} (l : list A) k x : nth_error l k = Some x -> l = firstn k l ++ x :: skipn (S k) l.
Proof. revert k. induction l as [|y l IH]; intros [|k] H; try discriminate; cbn in *; [congruence|]. now rewrite <- (IH k H). Qed.

(** the files up to [k] were applied *)
Definition upto (paths : list (list Z)) (root : doc) (k : nat) (r : doc) (seen : list doc) : Prop := (k <= length paths)%nat /\ st root (firstn k paths) = (Ok r, seen).

Lemma upto_next paths root k r seen i d r' : upto paths root k r seen -> i = k -> item paths i d -> apply r d = Ok r' -> upto paths root (S k) r' (seen ++ [r']).
Proof.
  intros [L U] -> (p & v & N & O & P) A. split; [apply nth_error_Some; congruence|]. rewrite (firstn_S _ _ _ N), st_app, U. cbn [apply_items_st]. unfold apply_item. rewrite O. cbn [bind]. unfold ApplyModel.appdiff. rewrite P. cbn [bind]. now rewrite A.
Qed.
Lemma upto_apply_fails paths root k r seen d e : upto paths root k r seen -> item paths k d -> apply r d = e -> (forall x, e <> Ok x) -> st root paths = (e, seen).
Proof.
  intros [L U] (p & v & N & O & P) A Ne. rewrite (split_at _ _ _ N), st_app, U. cbn [apply_items_st]. unfold apply_item. rewrite O. cbn [bind]. unfold ApplyModel.appdiff. rewrite P. cbn [bind]. rewrite A.
  destruct e as [x| |]; [destruct (Ne x eq_refl)| |]; now rewrite app_nil_r.
Qed.
Lemma upto_open_fails paths root k r seen p : upto paths root k r seen -> nth_error paths k = Some p -> (forall v, open p <> Ok v) -> exists e, (forall x, e <> Ok x) /\ st root paths = (e, seen).
Proof.
  intros [L U] N O. rewrite (split_at _ _ _ N), st_app, U. cbn [apply_items_st]. unfold apply_item. destruct (open p) as [v| |] eqn:E; [destruct (O v eq_refl)| |]; cbn [bind];
  eexists; (split; [|rewrite app_nil_r; reflexivity]); discriminate.
Qed.

(** ** The map *)

Lemma map_get_in i m (d : D) : map_get i m = Some d -> In (i, d) m.
Proof.
  unfold map_get. destruct (find _ m) as [[j x]|] eqn:E; [|discriminate]. intros H. apply Some_inj in H. cbn [snd] in H. subst x. apply find_some in E as [I E]. cbn [fst] in E. apply Nat.eqb_eq in E. now subst j.
Qed.
Lemma map_get_none i (m : list (nat * D)) : map_get i m = None <-> ~ In i (map fst m).
Proof.
  unfold map_get. split.
  - destruct (find _ m) eqn:E; [discriminate|]. intros _ I. apply in_map_iff in I as ([j x] & <- & I). apply (find_none _ _ E) in I. cbn [fst] in I. now rewrite Nat.eqb_refl in I.
  - intros N. destruct (find _ m) as [[j x]|] eqn:E; [|reflexivity]. apply find_some in E as [I E]. cbn [fst] in E. apply Nat.eqb_eq in E. subst j. destruct N. apply (in_map fst _ _ I).
Qed.
Lemma map_remove_none i (m : list (nat * D)) : ~ In i (map fst m) -> map_remove i m = m.
Proof.
  induction m as [|[j x] m IH]; [reflexivity|]. cbn [map fst In]. intros N. unfold map_remove. cbn [filter fst]. destruct (Nat.eqb_spec j i) as [->|]; [destruct N; now left|]. cbn [negb]. f_equal. apply IH. tauto.
Qed.
Lemma map_remove_perm i (m : list (nat * D)) d : NoDup (map fst m) -> map_get i m = Some d -> Permutation m ((i, d) :: map_remove i m).
Proof.
  intros N G. apply map_get_in in G. revert N G. induction m as [|[j x] m IH]; [intros _ []|]. intros N I. cbn [map fst] in N. inversion N as [|? ? N1 N2]; subst. unfold map_remove. cbn [filter fst].
  destruct I as [E|I].
  - inversion E; subst j x. rewrite Nat.eqb_refl. cbn [negb]. fold (map_remove i m). now rewrite map_remove_none.
  - destruct (Nat.eqb_spec j i) as [->|]; [destruct N1; apply (in_map fst _ _ I)|]. cbn [negb]. fold (map_remove i m). rewrite perm_swap. apply perm_skip. auto.
Qed.

(** ** Applying what has arrived *)

Lemma several_ok paths root : forall f r index m seen o r' index' m' seen', (length m < f)%nat ->
  apply_several f r index m seen = (o, (r', index', m', seen')) -> upto paths root index r seen -> Forall (fun e => item paths (fst e) (snd e)) m -> NoDup (map fst m) ->
  (o = Ok tt /\ upto paths root index' r' seen' /\ Permutation (map fst m ++ seq 0 index) (map fst m' ++ seq 0 index') /\ incl m' m /\ NoDup (map fst m') /\ map_get index' m' = None) \/
  (exists d, upto paths root index' r' seen' /\ item paths index' d /\ (forall x, apply r' d <> Ok x) /\ match apply r' d with Ok _ => False | Err => o = Err | Panic => o = Panic end).
Proof.
  induction f as [|f IH]; intros r index m seen o r' index' m' seen' L H U F N; [lia|]. cbn [ApplyModel.apply_several] in H. destruct (map_get index m) as [d|] eqn:G.
  - pose proof (map_remove_perm _ _ _ N G) as P. assert (Id : item paths index d). { rewrite Forall_forall in F. apply (F (index, d)). now apply map_get_in. }
    destruct (apply r d) as [r1| |] eqn:A.
    + assert (Lr : (length (map_remove index m) < f)%nat) by (apply Permutation_length in P; cbn [length] in P; lia).
      assert (Ir : incl (map_remove index m) m) by (intros x X; eapply Permutation_in; [symmetry; exact P|now right]).
      assert (Nr : NoDup (map fst (map_remove index m))). { apply (Permutation_map fst) in P. apply Permutation_NoDup with (2 := N) in P. cbn [map] in P. now inversion P. }
      apply IH in H as [(-> & U' & P' & I' & N' & G')|H]; try assumption.
      * left. split; [reflexivity|]. split; [exact U'|]. split; [|split; [eapply incl_tran; eassumption|split; assumption]]. rewrite <- P'. rewrite (Permutation_map fst P). cbn [map fst].
        rewrite seq_S. cbn [plus]. rewrite <- app_comm_cons, Permutation_middle. apply Permutation_app_head. apply Permutation_cons_append.
      * now right.
      * eapply upto_next; try eassumption. reflexivity.
      * rewrite Forall_forall in *. auto.
    + inversion H; subst. right. exists d. repeat split; try assumption; try apply U; rewrite A; [discriminate|reflexivity].
    + inversion H; subst. right. exists d. repeat split; try assumption; try apply U; rewrite A; [discriminate|reflexivity].
  - inversion H; subst. left. repeat split; try assumption; try apply U; [reflexivity|apply incl_refl].
Qed.

(** ** The invariant *)

Section Inv.
Variable paths : list (list Z).
Variable root : doc.
Notation len := (length paths).
Notation upto := (upto paths root).
Notation item := (item paths).
Notation opened := (opened paths).

Definition reading (s : mt doc D) (nx : nat) : Prop :=
  (m_reader s = Some nx /\ (nx <= len)%nat) \/
  (m_reader s = None /\ (nx = len \/ exists p, nth_error paths nx = Some p /\ forall v, open p <> Ok v)).

Definition final (s : mt doc D) (r : res doc) : Prop :=
  (exists x, r = Ok x /\ st root paths = (Ok x, m_seen s) /\ m_workers s = [] /\ forall i, m_reader s = Some i -> (len <= i)%nat) \/
  (r = Err /\ m_workers s = [] /\ m_reader s = None /\ exists e, (forall x, e <> Ok x) /\ st root paths = (e, m_seen s)) \/
  (exists k r' d, upto k r' (m_seen s) /\ item k d /\ (forall x, apply r' d <> Ok x) /\ r = apply r' d).

Definition inv (s : mt doc D) : Prop := exists nx, reading s nx /\ (nx <= len)%nat /\
  (forall j p, (j < nx)%nat -> nth_error paths j = Some p -> exists v, open p = Ok v) /\
  Forall (fun e => (fst e < nx)%nat /\ opened (fst e) (snd e)) (m_workers s) /\
  match m_result s with
  | Some r => final s r
  | None => Forall (fun e => item (fst e) (snd e)) (m_queue s) /\ Forall (fun e => item (fst e) (snd e)) (m_map s) /\
      Permutation (map fst (m_workers s) ++ map fst (m_queue s) ++ map fst (m_map s) ++ seq 0 (m_index s)) (seq 0 nx) /\
      m_received s = (length (m_map s) + m_index s)%nat /\ map_get (m_index s) (m_map s) = None /\ upto (m_index s) (m_root s) (m_seen s)
  end.

Lemma inv_start : inv (mt_start root).
Proof.
  exists 0%nat. split; [left; cbn; split; [reflexivity|lia]|]. split; [lia|]. split; [lia|]. split; [constructor|]. cbn. split; [constructor|]. split; [constructor|]. split; [constructor|]. split; [reflexivity|]. split; [reflexivity|].
  split; [lia|reflexivity].
Qed.

Lemma nodup_map s nx : Permutation (map fst (m_workers s) ++ map fst (m_queue s) ++ map fst (m_map s) ++ seq 0 (m_index s)) (seq 0 nx) ->
  NoDup (map fst (@m_queue doc D s) ++ map fst (m_map s) ++ seq 0 (m_index s)).
Proof.
  intros P. assert (N : NoDup (seq 0 nx)) by apply seq_NoDup. apply Permutation_NoDup with (1 := Permutation_sym P) in N. clear P. revert N. generalize (map fst (m_workers s)). intros l. induction l as [|x l IH]; [auto|]. intros N. inversion N; auto.
Qed.
Lemma nodup_left {A} (a b : list A) : NoDup (a ++ b) -> NoDup a.
Proof. induction a as [|x a IH]; [constructor|]. cbn. intros N. inversion N as [|? ? N1 N2]; subst. constructor; [intros I; apply N1, in_or_app; now left|auto]. Qed.

Lemma move_back {A} (x : A) B Q R : Permutation (B ++ (Q ++ [x]) ++ R) (x :: B ++ Q ++ R).
Proof. rewrite <- app_assoc. cbn [app]. rewrite (app_assoc B Q (x :: R)), <- Permutation_middle, <- app_assoc. reflexivity. Qed.
Ltac proj := cbn [m_reader m_workers m_queue m_received m_map m_index m_root m_seen m_result].
Lemma inv_step s s' : inv s -> step paths s (Running s') -> inv s'.
Proof.
  intros (nx & Rd & Ln & Op & Fw & Rest) St. inversion St as [s1 i p v H H0 H1 Es Es'|s1 i p H H0 H1 Es Es'|s1 i H H0 Es Es'|s1 a i v b d H H0 H1 Es Es'| | |s1 i d queue H0 H1 H2 Es Es'|s1 H0 H1 H2 H3 H4 Es Es'|s1 H0 H1 Es Es']; subst; cbn [m_reader m_workers m_queue m_received m_map m_index m_root m_seen m_result].
  - (* read *) destruct Rd as [[Er Li]|[Er _]]; [|congruence]. assert (i = nx) by congruence. subst i. assert (Lt : (nx < len)%nat) by (apply nth_error_Some; congruence).
    exists (S nx). split; [left; proj; split; [reflexivity|lia]|]. split; [lia|]. split; [|split].
    + intros j p' J N. destruct (Nat.eq_dec j nx) as [->|]; [|apply (Op j p'); [lia|assumption]]. replace p' with p by congruence. eauto.
    + proj. apply Forall_app. split; [eapply Forall_impl; [|exact Fw]; cbn; intros e [A B]; split; [lia|exact B]|]. apply Forall_cons; [|apply Forall_nil]. cbn. split; [lia|]. exists p. auto.
    + proj. destruct (m_result s) as [r|] eqn:Er'.
      * destruct Rest as [(x & -> & E & W & Re)|[(-> & W & Re & _)|X]]; [apply Re in H; lia|congruence|]. right. right. exact X.
      * destruct Rest as (Fq & Fm & P & Rc & G & U). split; [exact Fq|]. split; [exact Fm|]. split; [|auto]. rewrite map_app. cbn [map fst]. rewrite <- app_assoc. cbn [app]. rewrite seq_S. cbn [plus].
        rewrite <- P. rewrite <- Permutation_middle. rewrite Permutation_cons_append. now rewrite <- !app_assoc.
  - (* read fails *) destruct Rd as [[Er Li]|[Er _]]; [|congruence]. assert (i = nx) by congruence. subst i. exists nx. split; [right; split; [reflexivity|right; eauto]|]. split; [lia|]. split; [exact Op|]. split; [exact Fw|]. proj.
    destruct (m_result s) as [r|]; [|exact Rest]. destruct Rest as [(x & -> & E & W & Re)|[(-> & W & Re & _)|X]]; [|congruence|right; right; exact X].
    left. exists x. repeat split; auto. discriminate.
  - (* read ends *) destruct Rd as [[Er Li]|[Er _]]; [|congruence]. assert (i = nx) by congruence. subst i. apply nth_error_None in H0. exists nx. split; [right; split; [reflexivity|left; lia]|]. split; [lia|]. split; [exact Op|]. split; [exact Fw|]. proj.
    destruct (m_result s) as [r|]; [|exact Rest]. destruct Rest as [(x & -> & E & W & Re)|[(-> & W & Re & _)|X]]; [|congruence|right; right; exact X].
    left. exists x. repeat split; auto. discriminate.
  - (* send *) rewrite H1 in Rest. destruct Rest as (Fq & Fm & P & Rc & G & U). rewrite H in Fw, P. exists nx. split; [exact Rd|]. split; [lia|]. split; [exact Op|]. apply Forall_app in Fw as [Fa Fb]. inversion Fb as [|? ? [_ Hv] Fb']; subst.
    split; [proj; apply Forall_app; split; assumption|]. proj. rewrite H1. split.
    { apply Forall_app. split; [exact Fq|]. apply Forall_cons; [|apply Forall_nil]. cbn [fst snd] in *. destruct Hv as (p & N & O). exists p, v. auto. }
    split; [exact Fm|]. split; [|auto]. rewrite <- P, !map_app. cbn [map fst]. rewrite <- (app_assoc (map fst a) (map fst b)), <- (app_assoc (map fst a) (i :: map fst b)). apply Permutation_app_head. apply move_back.
  - (* receive *) rewrite H0 in Rest. destruct Rest as (Fq & Fm & P & Rc & G & U). exists nx. unfold ApplyModel.receive.
    pose proof (nodup_map _ _ P) as N. rewrite H2 in N, Fq. cbn [map fst app] in N. inversion N as [|? ? N1 N2]; subst. inversion Fq as [|? ? Hi Fq']; subst.
    assert (Ni : ~ In i (map fst (m_map s))). { intros I. apply N1, in_or_app. right. apply in_or_app. now left. }
    assert (Nm : NoDup (map fst (map_insert i d (m_map s)))). { unfold map_insert. rewrite map_remove_none by assumption. cbn [map fst]. constructor; [assumption|]. clear -N2. revert N2. generalize (map fst queue). intros l. induction l as [|x l IH]; intros N; [exact (nodup_left (map fst (m_map s)) (seq 0 (m_index s)) N)|inversion N; auto]. }
    destruct (apply_several _ _ _ _ _) as [o [[[r' index'] m'] seen']] eqn:E. apply (several_ok paths root) in E; [|lia|exact U| |exact Nm].
    2:{ unfold map_insert. rewrite map_remove_none by assumption. apply Forall_cons; assumption. }
    split; [exact Rd|]. split; [lia|]. split; [exact Op|]. proj. split; [exact Fw|].
    destruct E as [(-> & U' & P' & I' & N' & G')|(d' & U' & Id & Ne & Eo)].
    + split; [exact Fq'|]. split; [|split; [|split; [|split; [exact G'|exact U']]]].
      * rewrite Forall_forall in *. intros e Ie. apply I' in Ie. unfold map_insert in Ie. rewrite map_remove_none in Ie by assumption. destruct Ie as [<-|Ie]; [exact Hi|auto].
      * rewrite <- P, <- P'. rewrite H2. unfold map_insert. rewrite map_remove_none by assumption. cbn [map fst]. cbn [app]. apply Permutation_app_head. now rewrite <- Permutation_middle.
      * apply Permutation_length in P'. rewrite !app_length, !map_length, !seq_length in P'. unfold map_insert in P'. rewrite map_remove_none in P' by assumption. cbn [length] in P'. lia.
    + destruct (apply r' d') as [x| |] eqn:A; [contradiction| |]; subst o; right; right; exists index', r', d'; rewrite A; auto.
  - (* disconnected *) rewrite H0 in Rest. destruct Rest as (Fq & Fm & P & Rc & G & U). rewrite H2, H4 in P. cbn [map app] in P. exists nx. split; [exact Rd|]. split; [lia|]. split; [exact Op|]. split; [constructor|]. proj.
    right. left. proj. split; [reflexivity|]. split; [reflexivity|]. split; [exact H3|]. assert (En : (length (m_map s) + m_index s)%nat = nx). { apply Permutation_length in P. rewrite app_length, map_length, !seq_length in P. exact P. }
    assert (Ei : m_index s = nx).
    { destruct (Nat.lt_ge_cases (m_index s) nx) as [L|?]; [|lia]. exfalso. apply map_get_none in G. assert (I : In (m_index s) (seq 0 nx)) by (apply in_seq; lia). eapply Permutation_in in I; [|symmetry; exact P].
      apply in_app_or in I as [I|I]; [contradiction|]. apply in_seq in I. lia. }
    destruct Rd as [[Er _]|[_ [E|(p & Np & O)]]]; [congruence|lia|]. rewrite Ei in U. eapply upto_open_fails; eassumption.
  - (* return *) rewrite H0 in Rest. destruct Rest as (Fq & Fm & P & Rc & G & U). exists nx. split; [exact Rd|]. split; [lia|]. split; [exact Op|]. split; [exact Fw|]. proj. left. exists (m_root s). split; [reflexivity|].
    pose proof (Permutation_length P) as Pl. rewrite !app_length, !map_length, !seq_length in Pl.
    assert (W : length (m_workers s) = 0%nat) by lia. assert (Nx : nx = len) by lia.
    assert (Ei : m_index s = nx).
    { destruct (Nat.lt_ge_cases (m_index s) nx) as [L|?]; [|lia]. exfalso. apply map_get_none in G. assert (I : In (m_index s) (seq 0 nx)) by (apply in_seq; lia). eapply Permutation_in in I; [|symmetry; exact P].
      assert (Q : length (m_queue s) = 0%nat) by lia. destruct (m_workers s), (m_queue s); try discriminate. cbn [map app] in I. apply in_app_or in I as [I|I]; [contradiction|]. apply in_seq in I. lia. }
    split; [|split].
    + destruct U as [_ U]. rewrite Ei, Nx, firstn_all in U. exact U.
    + destruct (m_workers s); [reflexivity|discriminate].
    + proj. intros i Er. destruct Rd as [[Er' _]|[Er' _]]; [|congruence]. assert (i = nx) by congruence. lia.
Qed.

Lemma inv_run n s : run paths root n (Running s) -> inv s.
Proof.
  intros R. remember (Running s) as o eqn:Eo. revert s Eo. induction R as [|n s0 o R IH St]; intros s Eo; [inversion Eo; apply inv_start|]. subst o. eapply inv_step; [apply IH; reflexivity|exact St].
Qed.

(** ** Results *)

Lemma upto_item k r seen j p : upto k r seen -> (j < k)%nat -> nth_error paths j = Some p -> exists v d, open p = Ok v /\ prepare v = Ok d.
Proof.
  intros [_ U] L N. rewrite <- (firstn_skipn (S j) (firstn k paths)), firstn_firstn, Nat.min_l, (firstn_S _ _ _ N), st_app, st_app in U by lia.
  destruct (st root (firstn j paths)) as [[r1| |] s1]; [|discriminate|discriminate]. cbn [apply_items_st] in U. unfold apply_item in U. destruct (open p) as [v| |]; cbn [bind] in U; [|discriminate|discriminate]. exists v.
  unfold ApplyModel.appdiff in U. destruct (prepare v) as [d| |]; cbn [bind] in U; [|discriminate|discriminate]. eauto.
Qed.

(** what is returned *)
Lemma returned n s r : run paths root n (Running s) -> m_result s = Some r -> snd (st root paths) = m_seen s /\
  match fst (st root paths) with
  | Ok x => r = Ok x
  | Err => r = Err
  | Panic => r = Panic \/ r = Err
  end.
Proof.
  intros R E. apply inv_run in R as (nx & _ & _ & _ & _ & F). rewrite E in F. destruct F as [(x & -> & S & _)|[(-> & _ & _ & e & Ne & S)|(k & r' & d & U & I & Ne & ->)]].
  - rewrite S. cbn [fst snd]. auto.
  - rewrite S. cbn [fst snd]. split; [reflexivity|]. destruct e as [x| |]; [destruct (Ne x eq_refl)| |]; auto.
  - rewrite (upto_apply_fails _ _ _ _ _ _ _ U I eq_refl Ne). cbn [fst snd]. split; [reflexivity|]. destruct (apply r' d) as [x| |]; auto. 
Qed.

(** no abort if all goes well *)
Lemma aborts n s x seen : run paths root n (Aborted s) -> st root paths = (Ok x, seen) -> False.
Proof.
  intros R S. assert (U : upto len x seen) by (split; [lia|now rewrite firstn_all]). inversion R as [|? s0 ? R' St]; subst. apply inv_run in R' as (nx & Rd & Ln & Op & Fw & F). inversion St as [ | | | |s1 a i v b d r0 H H0 H1 Es Es'|s1 a i v b H H0 Es Es'| | | ]; subst.
  - rewrite H1 in F. destruct F as [(y & _ & _ & W & _)|[(_ & W & _)|(k & r' & d' & U' & I & Ne & _)]].
    + rewrite W in H. destruct a; discriminate.
    + rewrite W in H. destruct a; discriminate.
    + rewrite (upto_apply_fails _ _ _ _ _ _ _ U' I eq_refl Ne) in S. apply (f_equal fst) in S. exact (Ne _ S).
  - rewrite H in Fw. apply Forall_app in Fw as [_ Fw]. inversion Fw as [|? ? [L (p & N & O)] _]; subst. cbn [fst snd] in *. destruct (upto_item _ _ _ i p U ltac:(lia) N) as (v' & d & O' & P).
    rewrite O in O'. apply Ok_inj in O'. subst v'. now apply H0 in P.
Qed.

(** a file that cannot be opened is always an error *)
Lemma missing_no_abort n s k r seen p : run paths root n (Aborted s) -> upto k r seen -> nth_error paths k = Some p -> (forall v, open p <> Ok v) -> False.
Proof.
  intros R U N O. inversion R as [|? s0 ? R' St]; subst. apply inv_run in R' as (nx & Rd & Ln & Op & Fw & F).
  assert (Lk : (nx <= k)%nat). { destruct (Nat.le_gt_cases nx k); [assumption|]. destruct (Op k p) as [v E]; [lia|assumption|]. now apply O in E. }
  inversion St as [ | | | |s1 a i v b d r0 H H0 H1 Es Es'|s1 a i v b H H0 Es Es'| | | ]; subst.
  - rewrite H1 in F. destruct F as [(y & _ & _ & W & _)|[(_ & W & _)|(k' & r' & d' & U' & I & Ne & _)]].
    + rewrite W in H. destruct a; discriminate.
    + rewrite W in H. destruct a; discriminate.
    + destruct (Nat.lt_trichotomy k' k) as [L|[->|L]].
      * pose proof I as (p' & v' & N' & O' & P'). pose proof (upto_apply_fails (firstn k paths) root k' r' (m_seen s) d' (apply r' d')) as X. destruct U as [Lu U]. rewrite X in U; [apply (f_equal fst) in U; exact (Ne _ U)| | |reflexivity|exact Ne].
        -- destruct U' as [_ U']. split; [rewrite firstn_length; lia|]. now rewrite firstn_firstn, Nat.min_l by lia.
        -- exists p', v'. split; [|auto]. rewrite <- N'. rewrite <- (firstn_skipn k paths) at 2. rewrite nth_error_app1; [reflexivity|]. rewrite firstn_length. assert (k' < len)%nat by (apply nth_error_Some; congruence). lia.
      * destruct I as (p' & v' & N' & O' & _). replace p' with p in O' by congruence. now apply O in O'.
      * destruct (upto_item _ _ _ _ _ U' L N) as (v' & _ & O' & _). now apply O in O'.
  - rewrite H in Fw. apply Forall_app in Fw as [_ Fw]. inversion Fw as [|? ? [L (p' & N' & O')] _]; subst. cbn [fst snd] in *. destruct (upto_item _ _ _ i p' U ltac:(lia) N') as (v' & d & O'' & P).
    rewrite O' in O''. apply Ok_inj in O''. subst v'. now apply H0 in P.
Qed.

(** a step is always possible until the function returns *)
Lemma progress n s : run paths root n (Running s) -> m_result s = None -> exists o, step paths s o.
Proof.
  intros R E. apply inv_run in R as (nx & Rd & Ln & Op & Fw & F). rewrite E in F. destruct F as (Fq & Fm & P & Rc & G & U). apply Permutation_length in P. rewrite !app_length, !map_length, !seq_length in P.
  destruct (m_reader s) as [i|] eqn:Er.
  - destruct (nth_error paths i) as [p|] eqn:N; [|eexists; eapply step_read_ends; eassumption]. destruct (open p) as [v| |] eqn:O; [eexists; eapply step_read; eassumption| |];
    (eexists; eapply step_read_fails; [eassumption|eassumption|intros v; rewrite O; discriminate]).
  - destruct (m_workers s) as [|[i v] w] eqn:W.
    + destruct (Nat.eq_dec (m_received s) len) as [El|Nl]; [eexists; eapply step_return; eassumption|]. destruct (m_queue s) as [|[i d] q] eqn:Q; [eexists; eapply step_disconnected; try eassumption; lia|].
      eexists. eapply step_receive; try eassumption. lia.
    + destruct (prepare v) as [d| |] eqn:Pr; [eexists; eapply (step_send _ _ _ _ _ []); eassumption| |];
      (eexists; eapply (step_prepare_fails _ _ _ _ _ []); [eassumption|intros d; rewrite Pr; discriminate]).
Qed.

(** the threads come to an end *)
Definition measure (s : mt doc D) : nat :=
  (match m_reader s with Some i => 3 * (len - i) + 1 | None => 0 end + 2 * length (m_workers s) + length (m_queue s) + match m_result s with None => 1 | Some _ => 0 end)%nat.

Lemma bounded_run n s : run paths root n (Running s) -> (n + measure s <= 3 * len + 2)%nat.
Proof.
  intros R. remember (Running s) as o eqn:Eo. revert s Eo. induction R as [|n s0 o R IH St]; intros s Eo; [inversion Eo; unfold measure; cbn; lia|]. subst o. specialize (IH s0 eq_refl). unfold measure in *.
  inversion St as [s1 i p v H H0 H1 Es Es'|s1 i p H H0 H1 Es Es'|s1 i H H0 Es Es'|s1 a i v b d H H0 H1 Es Es'| | |s1 i d queue H0 H1 H2 Es Es'|s1 H0 H1 H2 H3 H4 Es Es'|s1 H0 H1 Es Es']; subst; cbn [m_reader m_workers m_queue m_received m_map m_index m_root m_seen m_result].
  - rewrite H in IH. assert (i < len)%nat by (apply nth_error_Some; congruence). rewrite app_length. cbn [length]. lia.
  - rewrite H in IH. lia.
  - rewrite H in IH. lia.
  - rewrite H in IH. rewrite app_length in IH. cbn [length] in IH. rewrite !app_length. cbn [length]. lia.
  - rewrite H2, H0 in IH. cbn [length] in IH. unfold ApplyModel.receive. destruct (apply_several _ _ _ _ _) as [o [[[r' index'] m'] seen']]. proj. destruct o; lia.
  - rewrite H0, H2, H3, H4 in IH. cbn [length] in *. rewrite H3. lia.
  - rewrite H0 in IH. lia.
Qed.
Lemma bounded n o : run paths root n o -> (n <= 3 * len + 2)%nat.
Proof.
  intros R. destruct o as [s|s]; [pose proof (bounded_run _ _ R); lia|]. inversion R as [|? s0 ? R' St]; subst. pose proof (bounded_run _ _ R') as B. unfold measure in B. inversion St as [ | | | |s1 a i v b d r0 H H0 H1 Es Es'|s1 a i v b H H0 Es Es'| | | ]; subst; rewrite H in B; rewrite app_length in B; cbn [length] in B; lia.
Qed.

End Inv.

Lemma mt_returns paths root n s r : run paths root n (Running s) -> m_result s = Some r -> m_seen s = snd (st root paths) /\
  match apply_items doc appdiff dir root paths with Ok x => r = Ok x | Err => r = Err | Panic => r = Panic \/ r = Err end.
Proof. intros R E. destruct (returned _ _ _ _ _ R E) as [A B]. rewrite <- st_result. auto. Qed.

Lemma mt_runs paths root x : apply_items doc appdiff dir root paths = Ok x -> forall n o, run paths root n o -> (n <= 3 * length paths + 2)%nat /\
  exists s, o = Running s /\ (m_result s = Some (Ok x) \/ (m_result s = None /\ exists o', step paths s o')).
Proof.
  intros E n o R. split; [eapply bounded; eassumption|]. rewrite <- st_result in E. destruct (st root paths) as [y seen] eqn:S. cbn [fst] in E. subst y. destruct o as [s|s]; [|destruct (aborts _ _ _ _ _ _ R S)].
  exists s. split; [reflexivity|]. destruct (m_result s) as [r|] eqn:Er; [|right; split; [reflexivity|eapply progress; eassumption]]. left. destruct (returned _ _ _ _ _ R Er) as [_ B]. rewrite S in B. cbn [fst] in B. congruence.
Qed.

Lemma mt_missing paths root a p b r : paths = a ++ p :: b -> apply_items doc appdiff dir root a = Ok r -> (forall v, open p <> Ok v) -> forall n o, run paths root n o -> (n <= 3 * length paths + 2)%nat /\
  exists s, o = Running s /\ (m_result s = Some Err \/ (m_result s = None /\ exists o', step paths s o')).
Proof.
  intros Ep E O n o R. split; [eapply bounded; eassumption|]. rewrite <- st_result in E. destruct (st root a) as [y seen] eqn:S. cbn [fst] in E. subst y.
  assert (U : upto paths root (length a) r seen). { split; [rewrite Ep, app_length; lia|]. rewrite Ep, firstn_app, firstn_all, Nat.sub_diag. cbn [firstn]. now rewrite app_nil_r. }
  assert (N : nth_error paths (length a) = Some p). { rewrite Ep, nth_error_app2, Nat.sub_diag by lia. reflexivity. }
  destruct o as [s|s]; [|destruct (missing_no_abort _ _ _ _ _ _ _ _ R U N O)]. exists s. split; [reflexivity|]. destruct (m_result s) as [x|] eqn:Er; [|right; split; [reflexivity|eapply progress; eassumption]]. left. f_equal.
  pose proof (inv_run _ _ _ _ R) as (nx & Rd & Ln & Op & Fw & F). rewrite Er in F. destruct F as [(y & _ & S' & _)|[(-> & _)|(k & r' & d & U' & I & Ne & ->)]]; [|reflexivity|].
  - exfalso. destruct (upto_open_fails _ _ _ _ _ _ U N O) as (e & Ne & S2). rewrite S2 in S'. apply (f_equal fst) in S'. exact (Ne _ S').
  - exfalso. destruct (Nat.lt_trichotomy k (length a)) as [L|[->|L]].
    + pose proof I as (p' & v' & N' & O' & P'). pose proof (upto_apply_fails a root k r' (m_seen s) d (apply r' d)) as X. rewrite X in S; [apply (f_equal fst) in S; exact (Ne _ S)| | |reflexivity|exact Ne].
      * destruct U' as [_ U']. split; [lia|]. rewrite Ep, firstn_app in U'. replace (k - length a)%nat with 0%nat in U' by lia. cbn [firstn] in U'. now rewrite app_nil_r in U'.
      * exists p', v'. split; [|auto]. rewrite Ep, nth_error_app1 in N' by lia. exact N'.
    + destruct I as (p' & v' & N' & O' & _). replace p' with p in O' by congruence. now apply O in O'.
    + destruct (upto_item _ _ _ _ _ _ _ U' L N) as (v' & _ & O' & _). now apply O in O'.
Qed.

End Apply.
