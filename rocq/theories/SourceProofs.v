(** Proofs for C55. *)
From Verif Require Import Base StringCompactionModel StringCompactionProofs FileNameModel DocModel DiffProofs PhaseModel TreeModel HistModel HistSpec RemoveModel FolderModel FolderSpec FolderProofs SourceModel SourceSpec.

Lemma eqb_src_eq a b : eqb_src a b = true <-> a = b.
Proof.
  destruct a as [p|p], b as [q|q]; cbn [eqb_src]; (split; [intros H; try discriminate H; apply eqb_bytes_true in H; subst; reflexivity|intros H; try discriminate H]);
    inversion H; subst; apply FolderProofs.eqb_bytes_refl.
Qed.
Lemma eqb_src_refl a : eqb_src a a = true.
Proof. apply eqb_src_eq. reflexivity. Qed.

Section Sources.
Context {doc V opt : Type}.
Variable read : current_src -> V -> res (doc * Z).
Variable pack : current_src -> V -> archive.
Variable eqb_opt : opt -> opt -> bool.
Variable mkdiff : doc -> doc -> res (list Z).
Variable place : path -> Z.
Notation process := (@process doc opt).
Notation event := (@event doc V opt).
Notation get_src := (get_current_src_info read).
Notation happen := (happen read pack eqb_opt mkdiff place).
Notation session := (session read pack eqb_opt mkdiff place).
Implicit Types (p : process) (d : @disk V) (e : event) (es : list event).

(* ------------------------------------------------------------------ *)
(** * The map of sources *)

(** the entries of the maps are what [read] gave for [d] *)
Record good d p : Prop := Good {
  g_srcs : forall s i, find_src s (pr_srcs p) = Some i -> si_src i = s /\ read s (d s) = Ok (si_root i, si_hash i);
  g_dirs : forall dir j, find_path dir (pr_dirs p) = Some j -> di_dir j = dir /\ find_src (di_src j) (pr_srcs p) <> None /\ read (di_src j) (d (di_src j)) = Ok (di_root j, di_hash j);
  g_hists : forall dir j, find_path dir (pr_hists p) = Some j -> find_src (hi_src j) (pr_srcs p) <> None /\ read (hi_src j) (d (hi_src j)) = Ok (hi_root j, hi_hash j) }.

Lemma good_started d : good d started.
Proof. split; intros k i H; discriminate H. Qed.

Lemma get_src_good d s p r p' : good d p -> get_src d s p = (r, p') -> good d p' /\
  (forall i, r = Ok i -> si_src i = s /\ find_src s (pr_srcs p') = Some i /\ read s (d s) = Ok (si_root i, si_hash i)) /\
  (forall x, find_src x (pr_srcs p') <> None -> x = s \/ find_src x (pr_srcs p) <> None) /\
  pr_dirs p' = pr_dirs p /\ pr_hists p' = pr_hists p /\ pr_dirs_poisoned p' = pr_dirs_poisoned p /\ pr_hists_poisoned p' = pr_hists_poisoned p.
Proof.
  intros G. unfold get_current_src_info. destruct (pr_srcs_poisoned p).
  { intros E. apply pair_equal_spec in E as [<- <-]. split; [exact G|]. split; [intros i X; discriminate X|]. split; [auto|auto]. }
  destruct (find_src s (pr_srcs p)) as [i|] eqn:F.
  { intros E. apply pair_equal_spec in E as [<- <-]. split; [exact G|]. split; [|auto]. intros j X. apply Ok_inj in X as <-.
    destruct (g_srcs d p G s i F) as [A B]. auto. }
  destruct (read s (d s)) as [[root hash]| |] eqn:R; intros E; apply pair_equal_spec in E as [<- <-].
  - split; [|split; [|split; [|auto]]].
    + split; cbn [pr_srcs pr_dirs pr_hists]; intros k i H.
      * cbn [find_src] in H. destruct (eqb_src s k) eqn:K; [|apply (g_srcs d p G), H]. apply Some_inj in H as <-. apply eqb_src_eq in K. subst k. cbn [si_src si_root si_hash]. auto.
      * destruct (g_dirs d p G k i H) as (A & B & C). split; [exact A|]. split; [|exact C]. cbn [find_src]. destruct (eqb_src s (di_src i)); [discriminate|exact B].
      * destruct (g_hists d p G k i H) as (B & C). split; [|exact C]. cbn [find_src]. destruct (eqb_src s (hi_src i)); [discriminate|exact B].
    + intros i X. apply Ok_inj in X as <-. cbn [si_src si_root si_hash pr_srcs find_src]. rewrite eqb_src_refl. auto.
    + intros x. cbn [pr_srcs find_src]. destruct (eqb_src s x) eqn:K; [apply eqb_src_eq in K; auto|auto].
  - split; [exact G|]. split; [intros i X; discriminate X|auto].
  - split; [|split; [intros i X; discriminate X|auto]]. destruct G as [A B C]. split; assumption.
Qed.

Lemma put_dir_good d dir s p r p' : good d p -> put_dir_info read d dir s p = (r, p') -> good d p' /\
  (forall j, r = Ok j -> di_src j = s /\ di_dir j = dir /\ find_path dir (pr_dirs p') = Some j /\ read s (d s) = Ok (di_root j, di_hash j)) /\
  (forall x, find_src x (pr_srcs p') <> None -> x = s \/ find_src x (pr_srcs p) <> None).
Proof.
  intros G. unfold put_dir_info. destruct (get_src d s p) as [r1 p1] eqn:E. destruct (get_src_good _ _ _ _ _ G E) as (G1 & I & U & D & H & PD & PH).
  destruct r1 as [i| |]; intros X; apply pair_equal_spec in X as [<- <-].
  - destruct (I i eq_refl) as (S & F & R). split; [|split; [|exact U]].
    + destruct G1 as [A B C]. split; cbn [pr_srcs pr_dirs pr_hists]; [exact A| |exact C].
      intros k j K. cbn [find_path] in K. destruct (eqb_bytes dir k) eqn:Q; [|apply B, K]. apply Some_inj in K as <-. apply eqb_bytes_true in Q. subst k.
      cbn [di_dir di_src di_root di_hash]. rewrite S, F. split; [reflexivity|]. split; [discriminate|exact R].
    + intros j X. apply Ok_inj in X as <-. cbn [di_dir di_src di_root di_hash pr_dirs find_path]. rewrite FolderProofs.eqb_bytes_refl. auto.
  - split; [exact G1|]. split; [intros j X; discriminate X|exact U].
  - split; [destruct G1 as [A B C]; split; assumption|]. split; [intros j X; discriminate X|exact U].
Qed.

Lemma put_hist_good d dir s o p r p' : good d p -> put_hist_info read d dir s o p = (r, p') -> good d p' /\
  (forall x, find_src x (pr_srcs p') <> None -> x = s \/ find_src x (pr_srcs p) <> None).
Proof.
  intros G. unfold put_hist_info. destruct (get_src d s p) as [r1 p1] eqn:E. destruct (get_src_good _ _ _ _ _ G E) as (G1 & I & U & D & H & PD & PH).
  destruct r1 as [i| |]; intros X; apply pair_equal_spec in X as [<- <-]; (split; [|exact U]).
  - destruct (I i eq_refl) as (S & F & R). destruct G1 as [A B C]. split; cbn [pr_srcs pr_dirs pr_hists]; [exact A|exact B|].
    intros k j K. cbn [find_path] in K. destruct (eqb_bytes dir k) eqn:Q; [|apply (C k), K]. apply Some_inj in K as <-.
    cbn [hi_src hi_root hi_hash]. rewrite F. split; [discriminate|exact R].
  - exact G1.
  - destruct G1 as [A B C]; split; assumption.
Qed.

Lemma create_info_good d dir s p r p' : good d p -> create_info read d dir s p = (r, p') -> good d p' /\
  (forall j, r = Ok j -> di_dir j = dir /\ find_path dir (pr_dirs p') = Some j /\ read (di_src j) (d (di_src j)) = Ok (di_root j, di_hash j) /\ (find_path dir (pr_dirs p) = None -> di_src j = s)) /\
  (forall x, find_src x (pr_srcs p') <> None -> x = s \/ find_src x (pr_srcs p) <> None).
Proof.
  intros G. unfold create_info. destruct (pr_dirs_poisoned p).
  { intros E. apply pair_equal_spec in E as [<- <-]. split; [exact G|]. split; [intros j X; discriminate X|auto]. }
  destruct (find_path dir (pr_dirs p)) as [j|] eqn:F.
  - intros E. apply pair_equal_spec in E as [<- <-]. split; [exact G|]. split; [|auto]. intros k X. apply Ok_inj in X as <-.
    destruct (g_dirs d p G dir j F) as (A & B & C). split; [exact A|]. split; [exact F|]. split; [exact C|]. intros X; discriminate X.
  - intros E. destruct (put_dir_good _ _ _ _ _ _ G E) as (G' & I & U). split; [exact G'|]. split; [|exact U]. intros j ->.
    destruct (I j eq_refl) as (A & B & C & D). subst s. auto.
Qed.

Lemma force_info_good d dir s p r p' : good d p -> force_info read d dir s p = (r, p') -> good d p' /\
  (forall j, r = Ok j -> di_src j = s /\ di_dir j = dir /\ find_path dir (pr_dirs p') = Some j /\ read s (d s) = Ok (di_root j, di_hash j)) /\
  (forall x, find_src x (pr_srcs p') <> None -> x = s \/ find_src x (pr_srcs p) <> None).
Proof.
  intros G. unfold force_info. destruct (pr_dirs_poisoned p); [|intros E; eapply put_dir_good; eassumption].
  intros E. apply pair_equal_spec in E as [<- <-]. split; [exact G|]. split; [intros j X; discriminate X|auto].
Qed.

Lemma create_hist_good d dir s o p r p' : good d p -> create_hist read eqb_opt d dir s o p = (r, p') -> good d p' /\
  (forall x, find_src x (pr_srcs p') <> None -> x = s \/ find_src x (pr_srcs p) <> None).
Proof.
  intros G. unfold create_hist. destruct (pr_hists_poisoned p); [intros E; apply pair_equal_spec in E as [<- <-]; auto|].
  destruct (find_path dir (pr_hists p)) as [j|]; [|intros E; eapply put_hist_good; eassumption].
  destruct (negb (eqb_src (hi_src j) s)); [|destruct (negb (eqb_opt (hi_opt j) o))]; intros E; apply pair_equal_spec in E as [<- <-]; auto.
Qed.
Lemma force_hist_good d dir s o p r p' : good d p -> force_hist read d dir s o p = (r, p') -> good d p' /\
  (forall x, find_src x (pr_srcs p') <> None -> x = s \/ find_src x (pr_srcs p) <> None).
Proof.
  intros G. unfold force_hist. destruct (pr_hists_poisoned p); [intros E; apply pair_equal_spec in E as [<- <-]; auto|].
  intros E; eapply put_hist_good; eassumption.
Qed.

(** editing sources the process does not know changes nothing it knows *)
Lemma good_edit d d' p : (forall s, find_src s (pr_srcs p) <> None -> d' s = d s) -> good d p -> good d' p.
Proof.
  intros Q [A B C]. split.
  - intros s i F. rewrite Q; [apply A, F|]. rewrite F. discriminate.
  - intros dir j F. destruct (B dir j F) as (X & Y & Z). split; [exact X|]. split; [exact Y|]. rewrite Q by exact Y. exact Z.
  - intros dir j F. destruct (C dir j F) as (Y & Z). split; [exact Y|]. rewrite Q by exact Y. exact Z.
Qed.

(* ------------------------------------------------------------------ *)
(** * The archives *)

Notation right_archives := (right_archives read pack).

Lemma prepare_right now s v root hash fs r fs' : read s v = Ok (root, hash) -> right_archives fs ->
  prepare_hash_dir now (pack s v) hash fs = (r, fs') -> right_archives fs'.
Proof.
  intros R A E h b H. unfold prepare_hash_dir, make_hash_dir in E.
  destruct (get_folder hash fs) as [dir|] eqn:G.
  - destruct (read_at hash archive_name fs) as [c|] eqn:Q; apply pair_equal_spec in E as [<- <-]; [apply A, H|].
    rewrite read_write in H. destruct (h =? hash) eqn:K; cbn [andb] in H; [|apply A, H].
    assert (h = hash) by lia. subst h. rewrite FolderProofs.eqb_bytes_refl, G in H. apply Some_inj in H as <-. exists s, v, root. auto.
  - assert (N : forall t, right_archives (fs ++ [(hash, [(time_name, t)])])).
    { intros t h' b' H'. apply A. unfold read_at in H' |- *. setoid_rewrite get_folder_app in H'. destruct (get_folder h' fs); [exact H'|]. destruct (h' =? hash); [|discriminate H'].
      cbn [hget] in H'. change (eqb_bytes time_name archive_name) with false in H'. discriminate H'. }
    destruct (create_time_dat now) as [t| |]; try (apply pair_equal_spec in E as [<- <-]; apply (N []), H).
    assert (X : read_at hash archive_name (fs ++ [(hash, [(time_name, t)])]) = None).
    { unfold read_at. setoid_rewrite get_folder_app. rewrite G, Z.eqb_refl. reflexivity. }
    rewrite X in E. apply pair_equal_spec in E as [<- <-].
    rewrite read_write in H. destruct (h =? hash) eqn:K; cbn [andb] in H; [|apply (N t), H].
    assert (h = hash) by lia. subst h. rewrite FolderProofs.eqb_bytes_refl in H. setoid_rewrite get_folder_app in H. rewrite G, Z.eqb_refl in H. apply Some_inj in H as <-. exists s, v, root. auto.
Qed.

Lemma save_right now cur name x ow fs r fs' s v : so_archive cur = pack s v -> read s v = Ok (so_root cur, so_hash cur) -> plain name -> name <> archive_name -> right_archives fs ->
  save_dochy_file doc mkdiff now cur name x ow fs = (r, fs') -> right_archives fs'.
Proof.
  intros Q R P N A E. unfold save_dochy_file in E. rewrite Q in E. destruct (prepare_hash_dir now (pack s v) (so_hash cur) fs) as [r1 fs1] eqn:E1.
  assert (A1 := prepare_right _ _ _ _ _ _ _ _ R A E1). destruct r1 as [[]| |]; try (apply pair_equal_spec in E as [_ <-]; exact A1).
  rewrite (resolve_plain _ _ _ P) in E.
  destruct ((match read_at (so_hash cur) name fs1 with Some _ => true | None => false end) && negb ow); [apply pair_equal_spec in E as [_ <-]; exact A1|].
  destruct (mkdiff (so_root cur) x) as [diff| |]; apply pair_equal_spec in E as [_ <-]; try exact A1.
  intros h b H. rewrite read_write in H. destruct ((h =? so_hash cur) && eqb_bytes name archive_name) eqn:K; [|apply A1, H].
  apply andb_prop in K as [_ K]. apply eqb_bytes_true in K. contradiction.
Qed.

(* ------------------------------------------------------------------ *)
(** * Sessions *)

Record fine (used : list current_src) (st : @state doc V opt) : Prop := Fine {
  f_good : good (st_disk st) (st_proc st);
  f_used : forall s, find_src s (pr_srcs (st_proc st)) <> None -> In s used;
  f_right : forall i, right_archives (st_projects st i) }.

Lemma fine_session es : forall used st, calm used (st_disk st) es -> fine used st -> exists used', fine used' (session es st).
Proof.
  induction es as [|e es IH]; intros used [d p f] C F; cbn [SourceModel.session]; [exists used; exact F|]. destruct F as [G U A]. cbn [st_disk st_proc st_projects] in *.
  assert (M : forall p' s, good d p' -> (forall x, find_src x (pr_srcs p') <> None -> x = s \/ find_src x (pr_srcs p) <> None) -> fine (s :: used) (State d p' f)).
  { intros p' s G' U'. split; cbn [st_disk st_proc st_projects]; [exact G'| |exact A]. intros x X. destruct (U' x X) as [->|X']; [left; reflexivity|right; apply U, X']. }
  destruct e as [d'| |dir s|dir s|dir s o|dir s o|now dir name x ow|now dir]; cbn [calm] in C; cbn [SourceModel.happen].
  - destruct C as [Q C]. apply (IH used); [exact C|]. split; [|exact U|exact A]. cbn [st_disk st_proc]. apply (good_edit d); [|exact G]. intros s X. apply Q, U, X.
  - apply (IH []); [exact C|]. split; [apply good_started|intros s X; destruct X; reflexivity|exact A].
  - apply (IH (s :: used)); [exact C|]. destruct (create_info read d dir s p) as [r p'] eqn:E. destruct (create_info_good _ _ _ _ _ _ G E) as (G' & _ & U'). apply M; assumption.
  - apply (IH (s :: used)); [exact C|]. destruct (force_info read d dir s p) as [r p'] eqn:E. destruct (force_info_good _ _ _ _ _ _ G E) as (G' & _ & U'). apply M; assumption.
  - apply (IH (s :: used)); [exact C|]. destruct (create_hist read eqb_opt d dir s o p) as [r p'] eqn:E. destruct (create_hist_good _ _ _ _ _ _ _ G E) as (G' & U'). apply M; assumption.
  - apply (IH (s :: used)); [exact C|]. destruct (force_hist read d dir s o p) as [r p'] eqn:E. destruct (force_hist_good _ _ _ _ _ _ _ G E) as (G' & U'). apply M; assumption.
  - destruct C as (P & N & C). apply (IH used); [exact C|]. split; [exact G|exact U|]. cbn [st_projects]. intros i. unfold set_project. destruct (i =? place dir); [|apply A].
    unfold save_in. destruct (pr_dirs_poisoned p); [apply A|]. destruct (find_path dir (pr_dirs p)) as [j|] eqn:J; [|apply A].
    destruct (g_dirs d p G dir j J) as (_ & _ & R). set (cur := Source (di_hash j) (di_root j) (pack (di_src j) (d (di_src j)))).
    destruct (save_dochy_file doc mkdiff now cur name x ow (f (place dir))) as [r fs'] eqn:E. cbn [snd].
    eapply (save_right now cur name x ow (f (place dir)) r fs' (di_src j) (d (di_src j))); [reflexivity|exact R|exact P|exact N|apply A|exact E].
  - apply (IH used); [exact C|]. split; [exact G|exact U|]. cbn [st_projects]. intros i. unfold set_project. destruct (i =? place dir); [|apply A].
    unfold prepare_in, peek. destruct (pr_hists_poisoned p); [apply A|]. destruct (find_path dir (pr_hists p)) as [j|] eqn:J; [|apply A].
    destruct (g_hists d p G dir j J) as (_ & R). destruct (prepare_hash_dir now (pack (hi_src j) (d (hi_src j))) (hi_hash j) (f (place dir))) as [r fs'] eqn:E. cbn [snd].
    eapply prepare_right; [exact R|apply A|exact E].
Qed.

Lemma fine_start d f : (forall i, right_archives (f i)) -> fine [] (State d started f).
Proof. intros A. split; [apply good_started|intros s X; destruct X; reflexivity|exact A]. Qed.

(** what is known is what lies there *)
Lemma infos_current d f es st : (forall i, right_archives (f i)) -> calm [] d es -> st = session es (State d started f) ->
  (forall dir s j p, create_info read (st_disk st) dir s (st_proc st) = (Ok j, p) -> di_dir j = dir /\ read (di_src j) (st_disk st (di_src j)) = Ok (di_root j, di_hash j)) /\
  (forall dir s j p, force_info read (st_disk st) dir s (st_proc st) = (Ok j, p) -> di_dir j = dir /\ di_src j = s /\ read s (st_disk st s) = Ok (di_root j, di_hash j)) /\
  (forall dir j, peek dir (st_proc st) = Ok j -> read (hi_src j) (st_disk st (hi_src j)) = Ok (hi_root j, hi_hash j)).
Proof.
  intros A C ->. destruct (fine_session es [] (State d started f) C (fine_start d f A)) as (used & [G U _]). set (st := session es (State d started f)) in *. split; [|split].
  - intros dir s j p E. destruct (create_info_good _ _ _ _ _ _ G E) as (_ & I & _). destruct (I j eq_refl) as (X & _ & Y & _). auto.
  - intros dir s j p E. destruct (force_info_good _ _ _ _ _ _ G E) as (_ & I & _). destruct (I j eq_refl) as (X & Y & _ & Z). auto.
  - intros dir j. unfold peek. destruct (pr_hists_poisoned (st_proc st)); [discriminate|]. destruct (find_path dir (pr_hists (st_proc st))) as [k|] eqn:K; [|discriminate].
    intros X. apply Ok_inj in X as <-. apply (g_hists _ _ G dir k K).
Qed.

Lemma archives_right d f es i : (forall i, right_archives (f i)) -> calm [] d es -> right_archives (st_projects (session es (State d started f)) i).
Proof. intros A C. destruct (fine_session es [] (State d started f) C (fine_start d f A)) as (used & [_ _ R]). apply R. Qed.

(* ------------------------------------------------------------------ *)
(** * Loading what was saved *)

Lemma saved_loads appdiff archive_root adjust same later d f es st now dir name x ow fs' j :
  reproduces mkdiff appdiff same later -> coherent read pack archive_root same -> (forall i, right_archives (f i)) -> calm [] d es -> st = session es (State d started f) ->
  plain name -> name <> archive_name -> find_path dir (pr_dirs (st_proc st)) = Some j -> later (di_root j) x ->
  save_in pack mkdiff now (st_disk st) dir name x ow (st_proc st) (st_projects st (place dir)) = (Ok tt, fs') ->
  forall s v root hash a, read s v = Ok (root, hash) -> exists r,
    load_dochy_file doc appdiff archive_root adjust (Source hash root a) (di_hash j) name fs' = (if hash =? di_hash j then Ok r else adjust root r) /\ same r x.
Proof.
  intros Rep Co A C Est P N J L S s v root hash a R. destruct (fine_session es [] (State d started f) C (fine_start d f A)) as (used & [G U RA]). rewrite <- Est in *.
  destruct (g_dirs _ _ G dir j J) as (_ & _ & Rj). unfold save_in in S. destruct (pr_dirs_poisoned (st_proc st)); [discriminate S|]. rewrite J in S.
  set (cur := Source (di_hash j) (di_root j) (pack (di_src j) (st_disk st (di_src j)))) in *.
  assert (RA' : right_archives fs') by (eapply (save_right now cur); [reflexivity|exact Rj|exact P|exact N|apply RA|exact S]).
  destruct (hash =? di_hash j) eqn:H.
  - assert (hash = di_hash j) by lia. subst hash. assert (Sm := co_hash _ _ _ _ Co _ _ _ _ _ _ _ Rj R).
    destruct (saved _ now cur name x ow _ _ P S) as (fs1 & diff & Ep & Ed & Ew). subst fs'. cbn [so_root so_hash so_archive cur] in *.
    destruct (prepared _ _ _ _ _ _ Ep) as (_ & _ & _ & Pk & _). destruct (Pk eq_refl) as [Gf _].
    destruct (difference _ _ _ _ Rep _ _ L) as (w & Ev & _ & Ap). rewrite Ev in Ed. apply Ok_inj in Ed. subst w. destruct (Ap root (same_sym _ _ _ _ Rep _ _ Sm)) as (r & Er & Sr).
    exists r. split; [|exact Sr]. unfold load_dochy_file. cbn [so_hash so_root]. rewrite Z.eqb_refl, read_write, Z.eqb_refl, FolderProofs.eqb_bytes_refl. cbn [andb bind].
    destruct (get_folder (di_hash j) fs1); [|contradiction]. cbn [ok_or bind]. rewrite Er. reflexivity.
  - assert (B : exists b, match read_at (so_hash cur) archive_name (st_projects st (place dir)) with Some b => b | None => a_bytes (so_archive cur) end = b /\
      exists r, archive_root b = Ok r /\ same r (so_root cur)).
    { eexists. split; [reflexivity|]. destruct (read_at (so_hash cur) archive_name (st_projects st (place dir))) as [b|] eqn:Ra.
      - destruct (RA _ _ _ Ra) as (s1 & v1 & root1 & R1 & ->). destruct (co_archive _ _ _ _ Co _ _ _ _ R1) as (r & Er & Sr). exists r. split; [exact Er|].
        eapply (same_trans _ _ _ _ Rep); [exact Sr|]. eapply (co_hash _ _ _ _ Co); [exact R1|exact Rj].
      - apply (co_archive _ _ _ _ Co _ _ _ _ Rj). }
    destruct B as (b & Eb & r & Er & Sr).
    apply (other_version mkdiff appdiff archive_root adjust same later Rep now cur (Source hash root a) name x ow (st_projects st (place dir)) fs' b r);
      [exact L|exact P|exact N|exact S|cbn [so_hash cur]; lia|symmetry; exact Eb|exact Er|exact Sr].
Qed.

(* ------------------------------------------------------------------ *)
(** * Without that discipline *)

(** a source that is known stays as it is until the process ends *)
Lemma src_stays s i : forall es st, restarts es = false -> find_src s (pr_srcs (st_proc st)) = Some i -> find_src s (pr_srcs (st_proc (session es st))) = Some i.
Proof.
  assert (Q : forall d x p r p', get_src d x p = (r, p') -> find_src s (pr_srcs p) = Some i -> find_src s (pr_srcs p') = Some i).
  { intros d x p r p'. unfold get_current_src_info. destruct (pr_srcs_poisoned p); [intros E; apply pair_equal_spec in E as [_ <-]; auto|].
    destruct (find_src x (pr_srcs p)) eqn:F; [intros E; apply pair_equal_spec in E as [_ <-]; auto|].
    destruct (read x (d x)) as [[root hash]| |]; intros E; apply pair_equal_spec in E as [_ <-]; auto. cbn [pr_srcs find_src]. intros K.
    destruct (eqb_src x s) eqn:X; [|exact K]. apply eqb_src_eq in X. subst x. congruence. }
  assert (D : forall d dir x p, find_src s (pr_srcs p) = Some i -> find_src s (pr_srcs (snd (put_dir_info read d dir x p))) = Some i).
  { intros d dir x p K. unfold put_dir_info. destruct (get_src d x p) as [r p'] eqn:E. apply (Q _ _ _ _ _ E) in K. destruct r; exact K. }
  assert (H : forall d dir x o p, find_src s (pr_srcs p) = Some i -> find_src s (pr_srcs (snd (put_hist_info read d dir x o p))) = Some i).
  { intros d dir x o p K. unfold put_hist_info. destruct (get_src d x p) as [r p'] eqn:E. apply (Q _ _ _ _ _ E) in K. destruct r; exact K. }
  induction es as [|e es IH]; intros [d p f] R K; cbn [SourceModel.session]; [exact K|]. cbn [restarts existsb] in R. apply orb_false_elim in R as [Re R]. cbn [st_proc] in K.
  apply IH; [exact R|]. destruct e as [d'| |dir x|dir x|dir x o|dir x o|now dir name y ow|now dir]; cbn [SourceModel.happen st_proc]; try exact K.
  - discriminate Re.
  - unfold create_info. destruct (pr_dirs_poisoned p); [exact K|]. destruct (find_path dir (pr_dirs p)); [exact K|]. apply D, K.
  - unfold force_info. destruct (pr_dirs_poisoned p); [exact K|]. apply D, K.
  - unfold create_hist. destruct (pr_hists_poisoned p); [exact K|]. destruct (find_path dir (pr_hists p)) as [j|]; [|apply H, K].
    destruct (negb (eqb_src (hi_src j) x)); [exact K|]. destruct (negb (eqb_opt (hi_opt j) o)); exact K.
  - unfold force_hist. destruct (pr_hists_poisoned p); [exact K|]. apply H, K.
Qed.

Lemma get_src_known d s p i p' : get_src d s p = (Ok i, p') -> find_src s (pr_srcs p') = Some i.
Proof.
  unfold get_current_src_info. destruct (pr_srcs_poisoned p); [discriminate|]. destruct (find_src s (pr_srcs p)) as [k|] eqn:F.
  - intros E. apply pair_equal_spec in E as [E <-]. apply Ok_inj in E as <-. exact F.
  - destruct (read s (d s)) as [[root hash]| |]; [|discriminate|discriminate]. intros E. apply pair_equal_spec in E as [E <-]. apply Ok_inj in E as <-. cbn [pr_srcs find_src]. rewrite eqb_src_refl. reflexivity.
Qed.

(** a folder that is known keeps its info unless it is replaced *)
Lemma forced_same d dir s p j p' d' es st : force_info read d dir s p = (Ok j, p') -> restarts es = false -> st = session es (State d' p' (fun _ => [])) ->
  forall dir' j' p'', force_info read (st_disk st) dir' s (st_proc st) = (Ok j', p'') -> di_root j' = di_root j /\ di_hash j' = di_hash j /\ di_src j' = di_src j.
Proof.
  intros E R -> dir' j' p'' E'. unfold force_info in E. destruct (pr_dirs_poisoned p); [discriminate E|]. unfold put_dir_info in E. destruct (get_src d s p) as [r p1] eqn:G.
  destruct r as [i| |]; try discriminate E. apply pair_equal_spec in E as [E <-]. apply Ok_inj in E as <-. assert (K := get_src_known _ _ _ _ _ G).
  set (q := Process _ _ _ _ _ _) in *. assert (K' := src_stays s i es (State d' q (fun _ => [])) R K). set (st := session es (State d' q (fun _ => []))) in *.
  unfold force_info in E'. destruct (pr_dirs_poisoned (st_proc st)); [discriminate E'|]. unfold put_dir_info, get_current_src_info in E'. destruct (pr_srcs_poisoned (st_proc st)); [discriminate E'|].
  rewrite K' in E'. apply pair_equal_spec in E' as [E' _]. apply Ok_inj in E' as <-. auto.
Qed.

(** the map of sources is lost when a source panics *)
Definition spoiled p : Prop := pr_srcs_poisoned p = true /\ pr_dirs_poisoned p = true.
Lemma spoiled_stays : forall es st, restarts es = false -> spoiled (st_proc st) -> spoiled (st_proc (session es st)).
Proof.
  assert (H : forall d dir x o p, spoiled p -> spoiled (snd (put_hist_info read d dir x o p))).
  { intros d dir x o p [A B]. unfold put_hist_info, get_current_src_info. rewrite A. split; assumption. }
  induction es as [|e es IH]; intros [d p f] R K; cbn [SourceModel.session]; [exact K|]. cbn [restarts existsb] in R. apply orb_false_elim in R as [Re R]. cbn [st_proc] in K.
  apply IH; [exact R|]. destruct e as [d'| |dir x|dir x|dir x o|dir x o|now dir name y ow|now dir]; cbn [SourceModel.happen st_proc]; try exact K.
  - discriminate Re.
  - unfold create_info. rewrite (proj2 K). exact K.
  - unfold force_info. rewrite (proj2 K). exact K.
  - unfold create_hist. destruct (pr_hists_poisoned p); [exact K|]. destruct (find_path dir (pr_hists p)) as [j|]; [|apply H, K].
    destruct (negb (eqb_src (hi_src j) x)); [exact K|]. destruct (negb (eqb_opt (hi_opt j) o)); exact K.
  - unfold force_hist. destruct (pr_hists_poisoned p); [exact K|]. apply H, K.
Qed.

Lemma hist_created d dir s o p x p' : (forall o, eqb_opt o o = true) -> create_hist read eqb_opt d dir s o p = (Ok x, p') -> x = dir /\ exists j, peek dir p' = Ok j /\ hi_src j = s /\ eqb_opt (hi_opt j) o = true.
Proof.
  intros Ro E. unfold create_hist in E. destruct (pr_hists_poisoned p) eqn:Po; [discriminate E|]. destruct (find_path dir (pr_hists p)) as [j|] eqn:F.
  - destruct (eqb_src (hi_src j) s) eqn:S; [|discriminate E]. destruct (eqb_opt (hi_opt j) o) eqn:O; [|discriminate E]. cbn [negb] in E. apply pair_equal_spec in E as [E <-]. apply Ok_inj in E as <-.
    split; [reflexivity|]. exists j. unfold peek. rewrite Po, F. apply eqb_src_eq in S. auto.
  - unfold put_hist_info in E. destruct (get_src d s p) as [r p1]. destruct r as [i| |]; try discriminate E. apply pair_equal_spec in E as [E <-]. apply Ok_inj in E as <-.
    split; [reflexivity|]. eexists. unfold peek. cbn [pr_hists_poisoned pr_hists find_path]. rewrite FolderProofs.eqb_bytes_refl. split; [reflexivity|]. cbn [hi_src hi_opt]. auto.
Qed.
End Sources.
