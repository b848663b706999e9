(** Removing old files across source folders. *)
From Verif Require Import Base CompactionModel StringCompactionModel StringCompactionProofs FileNameModel FileNameSpec FileNameProofs
  DocModel DiffProofs PhaseModel TreeModel TreeSpec TreeProofs HistModel HistSpec HistProofs ChainProofs HistInvProofs HistSaveProofs
  RemoveModel RemoveSpec RemoveProofs RemoveLoadProofs RemoveMainProofs.

Lemma in_lastn {A} n (l : list A) x : In x (lastn n l) -> In x l.
Proof. unfold lastn. intros J. rewrite <- (firstn_skipn (length l - n) l). apply in_or_app. now right. Qed.
Lemma lastn_app {A} n (a b : list A) : (n <= length b)%nat -> lastn n (a ++ b) = lastn n b.
Proof.
  intros L. unfold lastn. rewrite app_length, skipn_app. replace (length a + length b - n - length a)%nat with (length b - n)%nat by lia. rewrite skipn_all2 by lia. reflexivity.
Qed.
Lemma lastn_map {A B} (f : A -> B) n l : lastn n (map f l) = map f (lastn n l).
Proof. unfold lastn. rewrite map_length. symmetry. apply map_skipn || (generalize (length l - n)%nat; induction l; intros [|k]; cbn; auto). Qed.

Section Folders.
Context {A : Type}.

Lemma get_filter k hash (fs : folders A) : bt_get k (filter (fun e => negb (hash =? fst e)) fs) = if k =? hash then None else bt_get k fs.
Proof.
  induction fs as [|[x d] fs IH]; [now destruct (k =? hash)|]. cbn [filter fst bt_get]. destruct (Z.eqb_spec hash x) as [->|N]; cbn [negb].
  - rewrite IH. destruct (Z.eqb_spec k x); reflexivity.
  - cbn [bt_get]. rewrite IH. destruct (Z.eqb_spec k x) as [->|]; [|reflexivity]. destruct (Z.eqb_spec x hash); [congruence|reflexivity].
Qed.

Lemma remove_dirs_ok hashes : forall fs : folders A, NoDup hashes -> (forall x, In x hashes -> get_folder x fs <> None) ->
  exists fs', remove_hash_dirs hashes fs = (Ok tt, fs') /\ (forall x, In x hashes -> get_folder x fs' = None) /\ (forall x, ~ In x hashes -> get_folder x fs' = get_folder x fs).
Proof.
  unfold get_folder. induction hashes as [|x hashes IH]; intros fs N Ex; [exists fs; split; [reflexivity|split; [intros ? []|auto]]|]. inversion N as [|? ? N1 N2]; subst.
  cbn [remove_hash_dirs]. unfold remove_hash_dir. destruct (bt_get x fs) as [d|] eqn:E; [|destruct (Ex x (or_introl eq_refl) E)].
  destruct (IH (filter (fun e => negb (x =? fst e)) fs) N2) as (fs' & R & G1 & G2).
  { intros y Y. rewrite get_filter. destruct (Z.eqb_spec y x) as [->|]; [contradiction|]. apply Ex. now right. }
  exists fs'. split; [exact R|]. split.
  - intros y [<-|Y]; [|auto]. rewrite G2, get_filter, Z.eqb_refl by assumption. reflexivity.
  - intros y Y. rewrite G2, get_filter by (intros Z; apply Y; now right). destruct (Z.eqb_spec y x) as [->|]; [|reflexivity]. destruct Y. now left.
Qed.

Lemma get_in_folder k hash (f : hmap A -> hmap A) fs : get_folder k (in_folder hash f fs) = if k =? hash then option_map f (get_folder k fs) else get_folder k fs.
Proof.
  unfold get_folder, in_folder. induction fs as [|[x d] fs IH]; [now destruct (k =? hash)|]. cbn [map fst snd bt_get]. destruct (Z.eqb_spec x hash) as [->|N]; cbn [bt_get].
  - destruct (Z.eqb_spec k hash) as [->|]; [reflexivity|]. rewrite IH. destruct (Z.eqb_spec k hash); [contradiction|reflexivity].
  - destruct (Z.eqb_spec k x) as [->|]; [destruct (Z.eqb_spec x hash); [contradiction|reflexivity]|]. exact IH.
Qed.

Lemma all_files_app a b : all_files (a ++ b) = all_files a ++ all_files b.
Proof. unfold all_files. now rewrite flat_map_app. Qed.

Lemma skipn_nth {B} (l : list B) i x : nth_error l i = Some x -> skipn i l = x :: skipn (S i) l.
Proof. revert i. induction l as [|y l IH]; intros [|i] H; try discriminate; cbn in *; [congruence|auto]. Qed.

Lemma first_kept_some vec n : forall ind sum i, first_kept vec n sum ind = Some i -> sum = length (all_files (skipn (S ind) vec)) ->
  (1 <= i <= ind)%nat /\ (n < length (all_files (skipn i vec)))%nat /\ (forall k, (i < k <= ind)%nat -> (length (all_files (skipn k vec)) <= n)%nat).
Proof.
  induction ind as [|ind IH]; intros sum i H E; cbn [first_kept] in H; [discriminate|]. destruct (nth_error vec (S ind)) as [[hash h]|] eqn:Nn; [|discriminate].
  pose proof (skipn_nth _ _ _ Nn) as Sk. assert (Es : (sum + length (list_files h))%nat = length (all_files (skipn (S ind) vec))).
  { rewrite Sk. unfold all_files. cbn [flat_map fst snd]. rewrite app_length, map_length. fold (all_files (skipn (S (S ind)) vec)). lia. }
  destruct (Nat.ltb_spec n (sum + length (list_files h))) as [L|L].
  - apply Some_inj in H. subst i. repeat split; try lia.
  - destruct (IH _ _ H Es) as (A1 & A2 & A3). repeat split; try lia. intros k K. destruct (Nat.eq_dec k (S ind)) as [->|]; [lia|]. apply A3. lia.
Qed.
Lemma first_kept_none vec n : forall ind sum, (ind < length vec)%nat -> first_kept vec n sum ind = None -> sum = length (all_files (skipn (S ind) vec)) ->
  forall k, (1 <= k <= ind)%nat -> (length (all_files (skipn k vec)) <= n)%nat.
Proof.
  induction ind as [|ind IH]; intros sum Lv H E k K; [lia|]. cbn [first_kept] in H. destruct (nth_error vec (S ind)) as [[hash h]|] eqn:Nn; [|apply nth_error_None in Nn; lia].
  pose proof (skipn_nth _ _ _ Nn) as Sk. assert (Es : (sum + length (list_files h))%nat = length (all_files (skipn (S ind) vec))).
  { rewrite Sk. unfold all_files. cbn [flat_map fst snd]. rewrite app_length, map_length. fold (all_files (skipn (S (S ind)) vec)). lia. }
  destruct (Nat.ltb_spec n (sum + length (list_files h))) as [L|L]; [discriminate|]. destruct (Nat.eq_dec k (S ind)) as [->|]; [lia|].
  eapply IH; [lia|exact H|exact Es|lia].
Qed.

Lemma nodup_firstn {B} (l : list B) k : NoDup l -> NoDup (firstn k l).
Proof. intros N. rewrite <- (firstn_skipn k l) in N. revert N. generalize (skipn k l) as r. generalize (firstn k l) as a. induction a as [|x a IH]; intros r N; [constructor|]. cbn in N. inversion N as [|? ? N1 N2]; subst. constructor; [intros I; apply N1, in_or_app; now left|eauto]. Qed.

Variable maxp : nat.
Variable cum : bool.

Lemma all_files_le k vec : (length (all_files (skipn (S k) vec)) <= length (all_files (skipn k vec)))%nat.
Proof. revert k. induction vec as [|e vec IH]; intros [|k]; try (cbn; lia); [|apply IH]. cbn [skipn]. unfold all_files. cbn [flat_map]. rewrite app_length. lia. Qed.
Lemma all_files_mono j k vec : (j <= k)%nat -> (length (all_files (skipn k vec)) <= length (all_files (skipn j vec)))%nat.
Proof. induction 1 as [|k L IH]; [lia|]. pose proof (all_files_le k vec). lia. Qed.

Lemma hash_skip (vec : list (Z * tree)) k j hash h : NoDup (map fst vec) -> nth_error vec k = Some (hash, h) -> (In hash (map fst (firstn j vec)) <-> (k < j)%nat).
Proof.
  intros N Nk. split.
  - intros I. apply in_map_iff in I as ([x h'] & E & I). cbn [fst] in E. subst x. apply In_nth_error in I as [i Hi]. assert (Li : (i < j)%nat).
    { assert (i < length (firstn j vec))%nat by (apply nth_error_Some; congruence). rewrite firstn_length in *. lia. }
    assert (Hi' : nth_error vec i = Some (hash, h')). { rewrite <- Hi. clear -Li. revert i vec Li. induction j as [|j IH]; intros i vec L; [lia|]. destruct vec as [|e vec], i as [|i]; auto. cbn. apply IH. lia. }
    rewrite NoDup_nth_error in N. assert (i = k); [|lia]. apply N; [rewrite map_length; apply nth_error_Some; congruence|].
    erewrite !map_nth_error by eassumption. reflexivity.
  - intros L. apply (in_map fst _ (hash, h)). rewrite <- (firstn_skipn j vec) in Nk. apply nth_error_In with k. rewrite nth_error_app1 in Nk; [exact Nk|].
    assert (k < length vec)%nat. { rewrite firstn_skipn in Nk. apply nth_error_Some. congruence. } rewrite firstn_length. lia.
Qed.

Lemma remove_old_ok vec n (fs : folders A) : histories_of fs vec -> exists fs', remove_old_files maxp cum vec n fs = (Ok tt, fs') /\
  (forall hash p, In (hash, p) (lastn n (all_files vec)) -> exists dir dir' content, get_folder hash fs = Some dir /\ get_folder hash fs' = Some dir' /\
     hget (filename p) dir = Some content /\ hget (filename p) dir' = Some content) /\
  (forall k hash h, (1 <= n)%nat -> nth_error vec k = Some (hash, h) -> (get_folder hash fs' = None <-> (n < length (all_files (skipn (S k) vec)))%nat)) /\
  (forall hash, ~ In hash (map fst vec) -> get_folder hash fs' = get_folder hash fs).
Proof.
  intros [N Hh]. assert (Ex : forall x, In x (map fst vec) -> get_folder x fs <> None).
  { intros x I. apply in_map_iff in I as ([x' h] & <- & I). destruct (Hh _ _ I) as (dir & files & junk & names & G & _). cbn [fst]. congruence. }
  (* what a history lists is in the folder *)
  assert (Here : forall hash h, In (hash, h) vec -> tree_ok [] h /\ items h = [] /\ Forall valid_props (list_files h) /\
    exists dir, get_folder hash fs = Some dir /\ forall p, In p (list_files h) -> exists content, hget (filename p) dir = Some content).
  { intros hash h I. destruct (Hh _ _ I) as (dir & files & junk & names & G & Fo & Pn & Ch). destruct (folder_tree _ _ _ _ Fo Pn) as (h' & Ch' & T). rewrite Ch in Ch'. apply Ok_inj in Ch'. subst h'.
    destruct T as (fs' & P' & ->). pose proof Fo as (Nd & P & V & _). assert (V' : Forall valid_props fs') by (eapply Permutation_Forall; [symmetry; exact P'|assumption]).
    destruct (history_ok fs' V') as [Tok It]. assert (Inn : forall p, In p (list_files (history fs')) -> In p files).
    { intros p J. destruct (listing fs' V') as (_ & M & _). apply M in J as (l1 & l2 & E & _). eapply Permutation_in; [exact P'|]. rewrite E. apply in_or_app. right. now left. }
    split; [exact Tok|]. split; [exact It|]. split; [rewrite Forall_forall in *; auto|]. exists dir. split; [exact G|]. intros p J. apply Inn in J.
    destruct (hget (filename p) dir) as [c|] eqn:E; [eauto|]. apply hget_none in E. destruct E. eapply Permutation_in; [symmetry; exact P|]. apply in_or_app. left. now apply in_map. }
  assert (Same : forall fs' : folders A, (forall hash p, In (hash, p) (lastn n (all_files vec)) -> get_folder hash fs' = get_folder hash fs) ->
    forall hash p, In (hash, p) (lastn n (all_files vec)) -> exists dir dir' content, get_folder hash fs = Some dir /\ get_folder hash fs' = Some dir' /\
     hget (filename p) dir = Some content /\ hget (filename p) dir' = Some content).
  { intros fs' Eq hash p J. pose proof (Eq hash p J) as E. apply in_lastn in J. unfold all_files in J. apply in_flat_map in J as ([x h] & I & J). apply in_map_iff in J as (p' & E' & J). cbn [fst snd] in *. inversion E'; subst x p'.
    destruct (Here _ _ I) as (_ & _ & _ & dir & G & C). destruct (C p J) as [content Hc]. exists dir, dir, content. rewrite E. auto. }
  unfold remove_old_files. destruct (rev vec) as [|[hash h] rv] eqn:Er.
  { exists fs. assert (vec = []) by (rewrite <- (rev_involutive vec), Er; reflexivity). subst vec. split; [reflexivity|]. split; [|split; [intros [|k]; discriminate|auto]].
    apply Same. auto. }
  assert (Ev : vec = rev rv ++ [(hash, h)]) by (rewrite <- (rev_involutive vec), Er; reflexivity).
  destruct (Nat.eq_dec n 0) as [->|Nz].
  { destruct (remove_dirs_ok (map fst vec) fs N Ex) as (fs' & R & G1 & G2). exists fs'. split; [exact R|]. split; [|split; [lia|exact G2]].
    intros x p J. exfalso. unfold lastn in J. rewrite skipn_all2 in J by lia. destruct J. }
  destruct n as [|n']; [lia|]. set (n := S n') in *. clear Nz. cbv iota beta. change (match n with 0%nat => remove_hash_dirs (map fst vec) fs | S _ => ?x end) with x.
  assert (Af : all_files vec = all_files (rev rv) ++ map (fun p => (hash, p)) (list_files h)).
  { rewrite Ev, all_files_app. unfold all_files at 2. cbn [flat_map fst snd]. now rewrite app_nil_r. }
  assert (Il : In (hash, h) vec) by (rewrite Ev; apply in_or_app; right; now left). destruct (Here _ _ Il) as (Tok & It & Vl & dir & G & Hc).
  destruct (Nat.ltb_spec n (length (list_files h))) as [L|L].
  - assert (El : removelast vec = rev rv) by (rewrite Ev; apply removelast_last). rewrite El.
    assert (Ev' : map fst vec = map fst (rev rv) ++ [hash]) by (rewrite Ev, map_app; reflexivity). rewrite Ev' in N. apply NoDup_remove in N as [N1 N2]. rewrite app_nil_r in N1, N2.
    destruct (remove_dirs_ok (map fst (rev rv)) fs N1) as (fs1 & R & G1 & G2). { intros x I. apply Ex. rewrite Ev'. apply in_or_app. now left. }
    rewrite R. destruct (removable_list maxp cum h n Tok It) as (l & K & E & _ & _ & _ & Il' & Nl & _). rewrite E. eexists. split; [reflexivity|]. split; [|split].
    + intros x p J. rewrite Af, lastn_app, lastn_map in J by (rewrite map_length; lia). apply in_map_iff in J as (p' & E' & J). inversion E'; subst x p'.
      destruct (Hc p (in_lastn _ _ _ J)) as [content C]. exists dir, (remove_files l dir), content. split; [exact G|]. rewrite get_in_folder, Z.eqb_refl, G2, G by assumption.
      split; [reflexivity|]. split; [exact C|]. rewrite remove_files_filter, (hget_filter (fun k => negb (named_in l k))); [exact C|]. apply negb_true_iff.
      destruct (named_in l (filename p)) eqn:X; [|reflexivity]. exfalso. apply (Nl p J). rewrite Forall_forall in Vl. apply named_in_file in X; [exact X| |apply Vl, (in_lastn _ _ _ J)].
      apply Forall_forall. auto.
    + intros k x hx _ Hk. rewrite get_in_folder. assert (Lk : (k < length vec)%nat) by (apply nth_error_Some; congruence). rewrite Ev in Hk, Lk. rewrite app_length in Lk. cbn [length] in Lk.
      destruct (Nat.eq_dec k (length (rev rv))) as [->|Nk].
      * rewrite nth_error_app2, Nat.sub_diag in Hk by lia. cbn in Hk. inversion Hk; subst. rewrite Z.eqb_refl, G2, G by assumption. cbn [option_map].
        split; [discriminate|]. rewrite skipn_all2 by (rewrite app_length; cbn [length]; lia). unfold all_files. cbn. lia.
      * rewrite nth_error_app1 in Hk by lia. apply nth_error_In, (in_map fst) in Hk. cbn [fst] in Hk. destruct (Z.eqb_spec x hash) as [->|_]; [contradiction|].
        rewrite G1 by assumption. split; [intros _|reflexivity]. rewrite Ev, skipn_app, all_files_app, app_length. replace (S k - length (rev rv))%nat with 0%nat by lia. cbn [skipn].
        unfold all_files at 2. cbn [flat_map fst snd]. rewrite app_nil_r, map_length. lia.
    + intros x Nx. rewrite get_in_folder. destruct (Z.eqb_spec x hash) as [->|_]; [destruct Nx; apply (in_map fst _ _ Il)|]. apply G2. intros I. apply Nx. rewrite Ev'. apply in_or_app. now left.
  - assert (Lv : (1 <= length vec)%nat) by (rewrite Ev, app_length; cbn [length]; lia).
    assert (Z0 : 0%nat = length (all_files (skipn (S (length vec - 1)) vec))) by (rewrite skipn_all2 by lia; reflexivity).
    destruct (first_kept vec n 0 (length vec - 1)) as [index|] eqn:Ef.
    + destruct (first_kept_some _ _ _ _ _ Ef Z0) as (I1 & I2 & I3).
      assert (Nf : NoDup (map fst (firstn index vec))) by (rewrite <- firstn_map; now apply nodup_firstn).
      destruct (remove_dirs_ok (map fst (firstn index vec)) fs Nf) as (fs' & R & G1 & G2).
      { intros x I. apply Ex. rewrite <- (firstn_skipn index vec), map_app. apply in_or_app. now left. }
      exists fs'. split; [exact R|]. assert (Out : forall k x hx, nth_error vec k = Some (x, hx) -> (get_folder x fs' = None <-> (k < index)%nat)).
      { intros k x hx Hk. rewrite <- (hash_skip vec k index x hx N Hk). split; [|apply G1]. intros Gn. destruct (in_dec Z.eq_dec x (map fst (firstn index vec))) as [?|Nx]; [assumption|].
        rewrite (G2 x Nx) in Gn. destruct (Ex x); [|assumption]. apply nth_error_In, (in_map fst) in Hk. exact Hk. }
      split; [|split].
      * apply Same. intros x p J. apply G2. rewrite <- (firstn_skipn index vec), all_files_app, lastn_app in J by lia. apply in_lastn in J. unfold all_files in J.
        apply in_flat_map in J as ([x' hx] & I & J). apply in_map_iff in J as (p' & E' & J). cbn [fst snd] in *. inversion E'; subst x' p'. apply In_nth_error in I as [i Hi].
        assert (Hk : nth_error vec (index + i) = Some (x, hx)).
        { rewrite <- (firstn_skipn index vec), nth_error_app2 by (rewrite firstn_length; lia). rewrite firstn_length. replace (index + i - Nat.min index (length vec))%nat with i; [exact Hi|].
          assert (index <= length vec)%nat by lia. lia. }
        rewrite (hash_skip vec (index + i) index x hx N Hk). lia.
      * intros k x hx _ Hk. rewrite (Out k x hx Hk). split; intros H; [pose proof (all_files_mono (S k) index vec ltac:(lia)); lia|].
        destruct (Nat.lt_ge_cases k index) as [?|Ge]; [assumption|]. exfalso. assert (Lk : (k < length vec)%nat) by (apply nth_error_Some; congruence).
        destruct (Nat.eq_dec (S k) (length vec)) as [El|Nl]; [rewrite skipn_all2 in H by lia; cbn in H; lia|]. specialize (I3 (S k) ltac:(lia)). lia.
      * intros x Nx. apply G2. intros I. apply Nx. rewrite <- (firstn_skipn index vec), map_app. apply in_or_app. now left.
    + exists fs. split; [reflexivity|]. split; [apply Same; auto|]. split; [|auto]. intros k x hx _ Hk. split; [intros Gn; destruct (Ex x); [apply nth_error_In, (in_map fst) in Hk; exact Hk|exact Gn]|].
      intros H. exfalso. assert (Lk : (k < length vec)%nat) by (apply nth_error_Some; congruence). destruct (Nat.eq_dec (S k) (length vec)) as [El|Nl]; [rewrite skipn_all2 in H by lia; cbn in H; lia|].
      pose proof (first_kept_none vec n (length vec - 1) 0 ltac:(lia) Ef Z0 (S k) ltac:(lia)). lia.
Qed.

End Folders.

(** ** The newest file of all source folders *)

Lemma listed_newest {A} (dir : hmap A) fs junk names h : folder dir fs junk -> Permutation names (map fst dir) -> create_file_history names = Ok h ->
  get_newest h = last_of (list_files h).
Proof.
  intros Fo Pn Ch. destruct (folder_tree _ _ _ _ Fo Pn) as (h' & Ch' & T). rewrite Ch in Ch'. apply Ok_inj in Ch'. subst h'.
  destruct T as (fs' & P' & ->). pose proof Fo as (_ & _ & V & _). assert (V' : Forall valid_props fs') by (eapply Permutation_Forall; [symmetry; exact P'|assumption]).
  apply (listing fs' V').
Qed.

Lemma newest_all {A} vec (fs : folders A) : histories_of fs vec -> (forall hash h, last_of vec = Some (hash, h) -> list_files h <> []) ->
  all_newest vec = last_of (all_files vec).
Proof.
  intros [_ Hh] Ne. unfold all_newest. destruct (rev vec) as [|[hash h] rv] eqn:Er.
  { assert (vec = []) by (rewrite <- (rev_involutive vec), Er; reflexivity). subst vec. reflexivity. }
  assert (El : last_of vec = Some (hash, h)) by (unfold last_of; rewrite Er; reflexivity).
  assert (Ev : vec = rev rv ++ [(hash, h)]) by (rewrite <- (rev_involutive vec), Er; reflexivity).
  destruct (Hh hash h) as (dir & files & junk & names & _ & Fo & Pn & Ch); [rewrite Ev; apply in_or_app; right; now left|].
  rewrite (listed_newest _ _ _ _ _ Fo Pn Ch). specialize (Ne _ _ El). rewrite Ev, all_files_app, last_of_app. unfold all_files at 1. cbn [flat_map fst snd]. rewrite app_nil_r.
  assert (Lm : last_of (map (fun p => (hash, p)) (list_files h)) = match last_of (list_files h) with Some p => Some (hash, p) | None => None end).
  { unfold last_of. rewrite <- map_rev. destruct (rev (list_files h)); reflexivity. }
  rewrite Lm. destruct (last_of (list_files h)) eqn:E; [reflexivity|]. apply last_of_none in E. contradiction.
Qed.
