(** Stopping while a history file is written. *)
From Verif Require Import Base CompactionModel FileNameModel FileNameSpec FileNameProofs StringCompactionModel StringCompactionProofs DocModel DiffProofs PhaseModel PhaseSpec PhaseProofs TreeModel TreeSpec TreeProofs
  HistModel HistSpec HistProofs ChainProofs HistInvProofs HistSaveProofs HistMainProofs RemoveModel FolderModel FolderSpec FolderProofs CrashModel.

Section Crash.
Context {doc : Type}.
Variable mkdiff : doc -> doc -> res (list Z).
Variable appdiff : doc -> list Z -> res doc.
Variable src : doc.
Variable op : options.
Notation st := (st doc).
Notation save := (save_history_file doc mkdiff appdiff src op).
Notation save_with := (save_with doc mkdiff appdiff src op).
Notation write_until := (write_until doc).

(** writing everything is the save of HistModel *)
Lemma save_with_all greater tag id d s : save_with (write_phase_file doc) greater tag id d s = save greater tag id d s.
Proof. reflexivity. Qed.

(** What a stop leaves: the folder as it was, or one file is being written, which
    is the one a save that is not stopped writes. *)
Lemma apply_dir paths s r s' : apply_items_for_save doc appdiff src op paths s = (r, s') -> s_dir doc s' = s_dir doc s.
Proof.
  unfold apply_items_for_save. destruct (get_cached_item _ _ _ _ _) as [[root rest]| |]; [|intros H; apply pair_equal_spec in H as [_ <-]; reflexivity|intros H; apply pair_equal_spec in H as [_ <-]; reflexivity].
  set (i := (length paths - length rest)%nat). clearbody i. set (s0 := St doc (s_dir doc s) _ _). change (s_dir doc s) with (s_dir doc s0). clearbody s0. revert root i s0.
  induction rest as [|p rest IH]; intros root i s0; cbn [apply_caching]; [intros H; apply pair_equal_spec in H as [_ <-]; reflexivity|].
  destruct (apply_item _ _ _ _ _) as [root'| |]; [|intros H; apply pair_equal_spec in H as [_ <-]; reflexivity|intros H; apply pair_equal_spec in H as [_ <-]; reflexivity].
  destruct (_ <? _)%nat; intros H; apply IH in H; exact H.
Qed.


Lemma bind_ok {A B} (m : M doc A) (f : A -> M doc B) s b s' : bindM doc m f s = (Ok b, s') -> exists a s1, m s = (Ok a, s1) /\ f a s1 = (Ok b, s').
Proof. unfold bindM. destruct (m s) as [[a| |] s1]; intros H; [eauto|discriminate|discriminate]. Qed.
Lemma bind_go {A B} (m : M doc A) (f : A -> M doc B) s a s1 : m s = (Ok a, s1) -> bindM doc m f s = f a s1.
Proof. intros H. unfold bindM. now rewrite H. Qed.
Lemma bind_stop {A B} (m : M doc A) (f : A -> M doc B) s s1 : m s = (Panic, s1) -> bindM doc m f s = (Panic, s1).
Proof. intros H. unfold bindM. now rewrite H. Qed.
Lemma ret_ok {A} (r : res A) s a s1 : ret doc r s = (Ok a, s1) -> r = Ok a /\ s1 = s.
Proof. unfold ret. intros H. apply pair_equal_spec in H as [-> <-]. auto. Qed.

Lemma wrote k data path diff s s1 : write_phase_file doc data path diff s = (Ok tt, s1) -> exists content,
  s_dir doc s1 = hset path content (s_dir doc s) /\
  write_until k data path diff s = (Panic, St doc (hset path (firstn k content) (s_dir doc s)) (s_cache doc s) (s_cur doc s)).
Proof.
  unfold write_phase_file, CrashModel.write_until. destruct (encode (encode_pdata data)) as [header| |]; intros H; apply pair_equal_spec in H as [E H]; try discriminate. subst s1. exists (header ++ diff). auto.
Qed.

(** where a save that is not stopped succeeds, a stop leaves the beginning of the
    file it writes *)
Definition stops (k : nat) {A} (part : res A * st) (dir : hmap (list Z)) (full : st) : Prop :=
  exists name content s', part = (Panic, s') /\ s_dir doc full = hset name content dir /\ s_dir doc s' = hset name (firstn k content) dir.

Ltac ok H x s1 E := apply bind_ok in H as (x & s1 & E & H); erewrite bind_go by exact E; cbv beta.
Ltac okr H x := let E := fresh "E" in let s1 := fresh "s" in ok H x s1 E; apply ret_ok in E as [E ->].

Lemma derive_stops k greater tag d h from s p s1 : derive_impl doc mkdiff appdiff src op greater tag d h from s = (Ok p, s1) ->
  stops k (derive_with doc mkdiff appdiff src op (write_until k) greater tag d h from s) (s_dir doc s) s1.
Proof.
  unfold derive_impl, derive_with. destruct (get_newest h) as [np|]; [|discriminate]. intros H.
  okr H ctl. ok H content s2 Ec. apply pair_equal_spec in Ec as [_ <-].
  okr H dec. destruct dec as [[decoded u] rest]. okr H data. okr H next. okr H anc. okr H deps. destruct deps as [deps np'].
  ok H composed s3 Ea. apply apply_dir in Ea. okr H diff. okr H data'.
  apply bind_ok in H as ([] & s4 & W & H). destruct (wrote k _ _ _ _ _ W) as (c & Ed & Eu). rewrite Ea in Ed, Eu.
  apply bind_ok in H as (? & s5 & Sc & H). apply ret_ok in H as [_ ->]. unfold set_cache in Sc. apply pair_equal_spec in Sc as [_ <-].
  eexists. exists c. eexists. split; [apply bind_stop; exact Eu|]. split; [exact Ed|reflexivity].
Qed.

Lemma phase_0_stops k tag ctl d s p s1 : write_phase_0 doc mkdiff appdiff src op tag ctl d s = (Ok p, s1) ->
  stops k (write_phase_0_with doc mkdiff appdiff src op (write_until k) tag ctl d s) (s_dir doc s) s1.
Proof.
  unfold write_phase_0, write_phase_0_with. intros H. ok H initial s2 Ea. apply apply_dir in Ea. okr H diff.
  apply bind_ok in H as ([] & s4 & W & H). destruct (wrote k _ _ _ _ _ W) as (c & Ed & Eu). rewrite Ea in Ed, Eu.
  apply bind_ok in H as (? & s5 & Sc & H). unfold set_cache in Sc. apply pair_equal_spec in Sc as [_ <-].
  apply bind_ok in H as (q & s6 & Q & H). apply ret_ok in Q as [_ ->]. apply ret_ok in H as [_ ->].
  eexists. exists c. eexists. split; [apply bind_stop; exact Eu|]. split; [exact Ed|reflexivity].
Qed.

Lemma start_stops k tag d s p s1 : start_new doc mkdiff appdiff src op tag d s = (Ok p, s1) ->
  stops k (start_with doc mkdiff appdiff src op (write_until k) tag d s) (s_dir doc s) s1.
Proof.
  unfold start_new, start_with. destruct (create_file_history _) as [h| |]; [|discriminate|discriminate]. destruct (get_newest h) as [np|]; [|apply phase_0_stops].
  intros H. okr H ctl. now apply (phase_0_stops k) in H.
Qed.

Lemma stops_bind {A B} k (m : M doc A) (f : A -> M doc B) s full : stops k (m s) (s_dir doc s) full -> stops k (bindM doc m f s) (s_dir doc s) full.
Proof. intros (name & c & s' & E & X). exists name, c, s'. split; [now apply bind_stop|exact X]. Qed.

Lemma save_stops k greater tag id d s p s1 : save greater tag id d s = (Ok p, s1) ->
  stops k (save_with (write_until k) greater tag id d s) (s_dir doc s) s1.
Proof.
  assert (Fresh : bindM doc (start_new doc mkdiff appdiff src op tag d) (fun saved => bindM doc (set_cur doc id saved) (fun _ => ret doc (Ok saved))) s = (Ok p, s1) ->
    stops k (bindM doc (start_with doc mkdiff appdiff src op (write_until k) tag d) (fun saved => bindM doc (set_cur doc id saved) (fun _ => ret doc (Ok saved))) s) (s_dir doc s) s1).
  { intros H. apply bind_ok in H as (q & s2 & E & H). apply stops_bind. apply (start_stops k) in E. apply bind_ok in H as (? & s3 & C & H). apply ret_ok in H as [_ ->]. unfold set_cur in C. apply pair_equal_spec in C as [_ <-]. exact E. }
  unfold save_history_file, CrashModel.save_with. destruct (s_cur doc s) as [[cur base]|]; [|exact Fresh]. destruct (id =? cur); [|exact Fresh].
  destruct (create_file_history _) as [h| |]; [|discriminate|discriminate]. destruct (get_newest h) as [np|]; [|exact Fresh].
  intros H. okr H from. apply bind_ok in H as (q & s2 & X & H). apply stops_bind. apply (derive_stops k) in X. apply bind_ok in H as (? & s3 & C & H). apply ret_ok in H as [_ ->]. unfold set_cur in C. apply pair_equal_spec in C as [_ <-]. exact X.
Qed.

Lemma hset_fresh {A} k (v : A) m : ~ In k (map fst m) -> hset k v m = m ++ [(k, v)].
Proof.
  induction m as [|[x a] m IH]; intros N; [reflexivity|]. cbn [hset app]. cbn [map fst In] in N. rewrite eqb_bytes_neq; [|intros ->; apply N; now left]. rewrite IH; [reflexivity|]. intros I. apply N. now right.
Qed.
Lemma hset_length {A} k (v : A) m : In k (map fst m) -> length (hset k v m) = length m.
Proof.
  induction m as [|[x a] m IH]; intros I; [destruct I|]. cbn [hset]. destruct (eqb_bytes x k) eqn:E; [reflexivity|]. cbn [length]. f_equal. apply IH. destruct I as [<-|I]; [cbn [fst] in E; rewrite eqb_bytes_refl in E; discriminate|exact I].
Qed.
Lemma hset_same_fresh {A} k k' (v v' : A) m : ~ In k (map fst m) -> hset k v m = hset k' v' m -> k' = k /\ v' = v.
Proof.
  intros N E. destruct (in_dec (list_eq_dec Z.eq_dec) k' (map fst m)) as [I|N'].
  - exfalso. apply (f_equal (@length _)) in E. rewrite (hset_length k' v' m I), (hset_fresh k v m N), app_length in E. cbn [length] in E. lia.
  - rewrite !hset_fresh in E by assumption. apply app_inj_tail in E as [_ E]. inversion E. auto.
Qed.

Variable same later : doc -> doc -> Prop.
Hypothesis Rep : reproduces mkdiff appdiff same later.
Hypothesis Built : exists b, build b = Ok op.
Variable junk : list (list Z).
Notation Inv := (Inv appdiff same later src op junk).
Notation reach := (reach mkdiff appdiff later src op (sound_save op) junk).
Notation load := (load_history_file doc appdiff src op).

(** reading files that are there in both folders *)
Lemma apply_items_agree dir dir' : forall paths root, (forall x, In x paths -> hget x dir' = hget x dir) ->
  apply_items doc appdiff dir' root paths = apply_items doc appdiff dir root paths.
Proof.
  induction paths as [|x paths IH]; intros root H; [reflexivity|]. cbn [apply_items]. unfold apply_item, open_diff_file, open. rewrite (H x (or_introl eq_refl)).
  match goal with |- bind ?m _ = _ => destruct m as [v| |]; cbn [bind]; [|reflexivity|reflexivity] end. apply IH. intros y I. apply H. now right.
Qed.

(** one more file, later than all, with any content: the others load *)
Lemma load_beside n s F p content id q dq : Inv n s F -> Z.of_nat n < 100000000 -> valid_props p -> readable p -> (forall x, In x (map fst F) -> before x p) -> In (q, dq) F ->
  exists r, load id q (St doc (hset (filename p) content (s_dir doc s)) [] None) = (Ok r, St doc (hset (filename p) content (s_dir doc s)) [] (Some (id, q))) /\ same r dq.
Proof.
  intros I Sm V R L J. pose proof (fst_in _ _ _ J) as Jq. set (fs := map fst F) in *.
  assert (N : ~ In p fs). { intros X. apply (earlier_irrefl _ (L p X)). }
  destruct (folder_add _ fs junk p content (i_folder _ _ _ _ _ _ _ _ _ I) V R N) as [Fo Nd]. set (dir' := hset (filename p) content (s_dir doc s)) in *.
  destruct (folder_tree _ _ _ _ Fo (Permutation_refl _)) as (h & Ch & T).
  assert (Vs : Forall valid_props (fs ++ [p])) by (destruct Fo as (_ & _ & X & _); exact X).
  assert (Sp : separate (fs ++ [p])).
  { unfold separate. rewrite map_app. cbn [map]. eapply Permutation_NoDup; [apply Permutation_cons_append|]. constructor; [|apply (inv_separate _ _ _ _ _ _ _ _ _ I)]. intros X. apply in_map_iff in X as (y & E & X). pose proof (L y X) as Y. unfold before in Y. rewrite E in Y. apply (earlier_irrefl _ Y). }
  pose proof (tree_looks h _ Vs Sp T) as Lk. destruct (i_chain _ _ _ _ _ _ _ _ _ I q Jq) as [l C].
  assert (C' : chain (max_phase op) (is_cumulative op) (fs ++ [p]) q l). { apply (chain_mono _ _ fs); [exact C|]. intros x X. apply in_or_app. now left. }
  destruct (apply_from appdiff same later src op Built junk n s F I Sm q dq l J C l [] src eq_refl) as (r & Er & Sr); [left; split; [reflexivity|apply (same_refl _ _ _ _ Rep)]|].
  exists r. split; [|exact Sr]. unfold load_history_file. cbn [s_dir]. rewrite Ch. unfold HistModel.load, bindM at 1.
  pose proof Fo as (_ & _ & _ & Rd & _). rewrite Forall_forall in Vs, Rd. assert (Jq' : In q (fs ++ [p])) by (apply in_or_app; now left).
  destruct (analyze_name q (Vs q Jq')) as [An _]. unfold bindM, ret. rewrite (An (Rd q Jq')). cbn [ok_or].
  rewrite (chain_ancestors (max_phase op) (is_cumulative op) (fs ++ [p]) h q l Lk); [|apply Forall_forall; exact Vs|auto|apply (i_small _ _ _ _ _ _ _ _ _ I q Jq)|exact C'].
  unfold apply_items_for_load. cbn [s_cache s_dir].
  assert (Eg : get_cached_item doc op src [] (map filename l) = Ok (src, map filename l)). { unfold get_cached_item. replace (get_phase_cache doc op [] (map filename l)) with (@None Z); [reflexivity|reflexivity]. }
  rewrite Eg. cbn [bind]. rewrite (apply_items_agree (s_dir doc s)), Er; [reflexivity|].
  intros x X. apply in_map_iff in X as (y & <- & Y). unfold dir'. apply hget_hset_other. intros E. apply Nd. rewrite <- E.
  assert (Yf : In y fs) by (destruct (chain_in _ _ _ _ _ _ C Y) as [->|?]; auto).
  destruct (i_folder _ _ _ _ _ _ _ _ _ I) as (_ & P & _). eapply Permutation_in; [apply Permutation_sym; exact P|]. apply in_or_app. left. now apply in_map.
Qed.

(** a save that is stopped: the file it writes is a new one *)
Lemma stopped_add greater n s F id d dir' : Inv n s F -> Z.of_nat n + 1 < 100000000 -> edited later src s F id d -> limited op ->
  stopped doc mkdiff appdiff src op greater None id d s dir' -> dir' = s_dir doc s \/
  exists p content, valid_props p /\ readable p /\ (forall x, In x (map fst F) -> before x p) /\ ~ In (filename p) (map fst (s_dir doc s)) /\ dir' = hset (filename p) content (s_dir doc s).
Proof.
  intros I Sm Ed Lm [->|[k ->]]; [now left|].
  destruct (save_step mkdiff appdiff same later Rep src op Built junk greater n s F id d I ltac:(lia) Ed)
    as [(p & s' & E & _)|[(E & base & h & np & Ec & Ch & En & Ph & Nb & G)|(r & pd & saves & E & Nr & Rc & Mo & Nj)]].
  - right. destruct (save_stops k _ _ _ _ _ _ _ E) as (name & c & s2 & Ek & Ef & Es). pose proof (i_folder _ _ _ _ _ _ _ _ _ I) as Fo.
    pose proof (room_of _ _ _ _ _ _ _ _ _ I Sm) as Rm.
    assert (Cv : forall i b, s_cur doc s = Some (i, b) -> valid_props b /\ room b).
    { intros i b X. apply (i_cur _ _ _ _ _ _ _ _ _ I) in X. split; [eapply inv_valid; eassumption|]. rewrite Forall_forall in Rm. auto. }
    destruct (save_later mkdiff appdiff src op greater id d (map fst F) junk s p s' Fo ltac:(intros i b X; apply (Cv i b X)) E) as (V & _ & A & content & Ew).
    assert (R : readable p) by (eapply save_readable; eassumption).
    assert (N : ~ In p (map fst F)). { intros X. apply (earlier_irrefl _ (A p X)). }
    destruct (folder_add _ (map fst F) junk p content Fo V R N) as [_ Nd]. rewrite Ew in Ef. apply hset_same_fresh in Ef as [-> ->]; [|exact Nd].
    exists p, (firstn k content). rewrite Ek. cbn [snd]. auto.
  - left. assert (Es : save_with (write_until k) greater None id d s = (Err, s)); [|rewrite Es; reflexivity].
    unfold CrashModel.save_with. rewrite Ec, Z.eqb_refl, Ch, En. unfold bindM at 1, ret, choose_from. rewrite Ph, Nat.eqb_refl, G. destruct (props_eqb base np) eqn:Q; [apply props_eqb_true in Q; contradiction|]. reflexivity.
  - exfalso. destruct Built as [b B]. destruct (next_position greater b op saves pd B Rc Mo) as (j & Ej & _); [exact Lm|]. apply (Nj j Ej).
Qed.
(** every file that was there is unchanged, and every version loads *)
Lemma stop_safe greater n s F id d dir' : reach n s F -> Z.of_nat n + 1 < 100000000 -> edited later src s F id d -> limited op ->
  stopped doc mkdiff appdiff src op greater None id d s dir' ->
  (forall name content, hget name (s_dir doc s) = Some content -> hget name dir' = Some content) /\
  (forall j q dq, In (q, dq) F -> exists r, load j q (St doc dir' [] None) = (Ok r, St doc dir' [] (Some (j, q))) /\ same r dq).
Proof.
  intros R Sm Ed Lm St. assert (I : Inv n s F) by (apply (reach_inv mkdiff); auto; lia).
  destruct (stopped_add greater n s F id d dir' I Sm Ed Lm St) as [->|(p & content & V & Rd & B & N & ->)]; (split; [auto|]).
  - intros j q dq J. eapply (load_ok mkdiff appdiff same later Rep src op Built junk n (HistModel.St doc (s_dir doc s) [] None) F); [|lia|exact J].
    apply (inv_cur appdiff same later src op junk n (HistModel.St doc (s_dir doc s) [] (s_cur doc s)) F); [|discriminate]. eapply inv_no_cache; eassumption.
  - intros name c G. rewrite hget_hset_other; [exact G|]. intros ->. apply N. apply hget_in in G. apply (in_map fst) in G. exact G.
  - intros j q dq J. eapply load_beside; try eassumption. lia.
Qed.
End Crash.

(** ** Preparing a folder *)

Lemma make_frame now hash fs r fs1 : make_hash_dir now hash fs = (r, fs1) ->
  (forall h f c, read_at h f fs = Some c -> read_at h f fs1 = Some c) /\ get_folder hash fs1 <> None.
Proof.
  unfold make_hash_dir. destruct (get_folder hash fs) as [dir|] eqn:G; intros E.
  - apply pair_equal_spec in E as [_ <-]. split; [auto|congruence].
  - assert (X : exists b, fs1 = fs ++ [(hash, b)]). { destruct (create_time_dat now); apply pair_equal_spec in E as [_ <-]; eauto. }
    destruct X as [b ->]. split; [|rewrite get_folder_app, G, Z.eqb_refl; discriminate].
    intros h f c. unfold read_at. rewrite get_folder_app. destruct (get_folder h fs); [auto|discriminate].
Qed.

Lemma stop_archive_states now a hash fs0 fs : prepare_stopped now a hash fs0 fs ->
  (forall h f c, read_at h f fs0 = Some c -> read_at h f fs = Some c) /\
  (read_at hash archive_name fs0 = None -> read_at hash archive_name fs = None \/ exists k, read_at hash archive_name fs = Some (firstn k (a_bytes a))).
Proof.
  assert (New : forall files, get_folder hash fs0 = None -> hget archive_name files = None ->
    (forall h f c, read_at h f fs0 = Some c -> read_at h f (fs0 ++ [(hash, files)]) = Some c) /\
    (read_at hash archive_name fs0 = None -> read_at hash archive_name (fs0 ++ [(hash, files)]) = None \/ exists k, read_at hash archive_name (fs0 ++ [(hash, files)]) = Some (firstn k (a_bytes a)))).
  { intros files G N. split.
    - intros h f c. unfold read_at. rewrite get_folder_app. destruct (get_folder h fs0); [auto|discriminate].
    - intros _. left. unfold read_at. now rewrite get_folder_app, G, Z.eqb_refl. }
  intros [|G|k bytes G _|k fs1 M N].
  - auto.
  - now apply New.
  - now apply New.
  - destruct (make_frame now hash fs0 (Ok tt) fs1 M) as [K Gf]. split.
    + intros h f c E. rewrite read_write. destruct ((h =? hash) && eqb_bytes archive_name f) eqn:X; [|auto].
      apply andb_prop in X as [X1 X2]. apply Z.eqb_eq in X1. apply eqb_bytes_true in X2. subst. apply K in E. congruence.
    + intros _. right. exists k. rewrite read_write, Z.eqb_refl, FolderProofs.eqb_bytes_refl. cbn [andb]. destruct (get_folder hash fs1); [reflexivity|contradiction].
Qed.

Lemma after_stop {doc} (mkdiff : doc -> doc -> res (list Z)) appdiff archive_root adjust same later : reproduces mkdiff appdiff same later ->
  forall now (cur new : source doc) fs0 fs now' name d overwrite fs' root,
  prepare_stopped now (so_archive cur) (so_hash cur) fs0 fs ->
  (forall bytes, read_at (so_hash cur) archive_name fs = Some bytes -> bytes = a_bytes (so_archive cur)) ->
  later (so_root cur) d -> plain name -> name <> archive_name ->
  save_dochy_file doc mkdiff now' cur name d overwrite fs = (Ok tt, fs') -> so_hash new <> so_hash cur ->
  archive_root (a_bytes (so_archive cur)) = Ok root -> same root (so_root cur) ->
  exists r, load_dochy_file doc appdiff archive_root adjust new (so_hash cur) name fs' = adjust (so_root new) r /\ same r d.
Proof.
  intros Rep now cur new fs0 fs now' name d ow fs' root _ A L P Na H N Ea Sa. eapply (other_version mkdiff appdiff archive_root adjust same later Rep); try eassumption.
  destruct (read_at (so_hash cur) archive_name fs) as [b|] eqn:E; [symmetry; apply (A b eq_refl)|reflexivity].
Qed.
