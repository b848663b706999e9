(** Named files and listed history entries. *)
From Verif Require Import Base StringCompactionModel StringCompactionProofs FileNameModel DocModel PhaseModel TreeModel HistModel HistSpec
  HistMainProofs RemoveModel FolderModel FolderSpec.

Lemma eqb_bytes_true a b : eqb_bytes a b = true <-> a = b.
Proof. apply eqb_bytes_eq. Qed.
Lemma eqb_bytes_refl a : eqb_bytes a a = true.
Proof. now apply eqb_bytes_eq. Qed.
Lemma eqb_bytes_false a b : a <> b -> eqb_bytes a b = false.
Proof. intros N. destruct (eqb_bytes a b) eqn:E; [|reflexivity]. apply eqb_bytes_true in E. contradiction. Qed.

(** ** Paths *)

Lemma components_plain s : ~ In 47 s -> forall cur, components cur s = [rev cur ++ s].
Proof.
  induction s as [|c s IH]; intros N cur; cbn [components]; [now rewrite app_nil_r|]. destruct (Z.eqb_spec c 47) as [->|_]; [exfalso; apply N; now left|].
  rewrite IH; [cbn [rev]; now rewrite <- app_assoc|]. intros I. apply N. now right.
Qed.

Lemma no_zero name : ~ In 0 name -> existsb (Z.eqb 0) name = false.
Proof. intros N. destruct (existsb (Z.eqb 0) name) eqn:E; [|reflexivity]. apply existsb_exists in E as (x & I & E). apply Z.eqb_eq in E. subst x. contradiction. Qed.

Lemma resolve_plain {A} hash name (fs : folders A) : plain name -> resolve hash name fs = Some (hash, name).
Proof.
  intros (N & Nz & N0 & N1 & N2). unfold resolve. destruct name as [|c name]; [contradiction|]. destruct (Z.eqb_spec c 47) as [->|_]; [exfalso; apply N; now left|].
  rewrite (no_zero _ Nz). cbn [orb]. rewrite (components_plain _ N). cbn [rev app walk]. rewrite (eqb_bytes_false _ _ N0), (eqb_bytes_false _ _ N1), (eqb_bytes_false _ _ N2). reflexivity.
Qed.

(** without a slash a name leads to itself or nowhere *)
Lemma resolve_flat {A} hash name (fs : folders A) h f : ~ In 47 name -> resolve hash name fs = Some (h, f) -> h = hash /\ f = name.
Proof.
  intros N. unfold resolve. destruct name as [|c name]; [discriminate|]. destruct ((c =? 47) || existsb (Z.eqb 0) (c :: name)); [discriminate|].
  rewrite (components_plain _ N). cbn [rev app walk]. destruct (_ || _); [discriminate|]. destruct (eqb_bytes (c :: name) [46; 46]); [discriminate|]. intros H. inversion H. auto.
Qed.

Lemma folder_called_fst {A} name (fs fs' : folders A) : map fst fs' = map fst fs -> folder_called name fs' = folder_called name fs.
Proof.
  unfold folder_called. revert fs'. induction fs as [|[h d] fs IH]; intros [|[h' d'] fs'] E; try discriminate; [reflexivity|]. cbn [map fst] in E. inversion E; subst h'. cbn [find fst].
  destruct (eqb_bytes _ _); [reflexivity|]. now apply IH.
Qed.
Lemma folder_called_app {A} name (fs more : folders A) h : folder_called name fs = Some h -> folder_called name (fs ++ more) = Some h.
Proof. unfold folder_called. induction fs as [|[x d] fs IH]; [discriminate|]. cbn [find fst app]. destruct (eqb_bytes _ _); [auto|exact IH]. Qed.

Lemma walk_mono {A} (fs fs' : folders A) : (forall n h, folder_called n fs = Some h -> folder_called n fs' = Some h) ->
  forall l here x, walk fs here l = Some x -> walk fs' here l = Some x.
Proof.
  intros M. induction l as [|c l IH]; intros here x; [discriminate|]. cbn [walk]. destruct (_ || _); [apply IH|]. destruct (eqb_bytes c [46; 46]); [destruct here; [apply IH|discriminate]|].
  destruct here; [auto|]. destruct (folder_called c fs) as [h|] eqn:E; [|discriminate]. rewrite (M _ _ E). apply IH.
Qed.
Lemma resolve_mono {A} (fs fs' : folders A) hash name x : (forall n h, folder_called n fs = Some h -> folder_called n fs' = Some h) ->
  resolve hash name fs = Some x -> resolve hash name fs' = Some x.
Proof. intros M. unfold resolve. destruct name as [|c name]; [discriminate|]. destruct (_ || _); [discriminate|]. now apply walk_mono. Qed.

(** ** Folders *)

Lemma in_folder_fst {A} hash f (fs : folders A) : map fst (in_folder hash f fs) = map fst fs.
Proof. unfold in_folder. rewrite map_map. apply map_ext. intros [h d]. cbn [fst]. now destruct (h =? hash). Qed.

Lemma get_in_folder {A} hash f (fs : folders A) h : get_folder h (in_folder hash f fs) = if h =? hash then option_map f (get_folder h fs) else get_folder h fs.
Proof.
  unfold get_folder, in_folder. induction fs as [|[x d] fs IH]; [cbn; now destruct (h =? hash)|]. cbn [map fst snd bt_get].
  destruct (x =? hash) eqn:Ex; (destruct (Z.eqb_spec h x) as [E|_]; [rewrite E, Ex; reflexivity|exact IH]).
Qed.

Lemma hget_hset {A} k (v : A) m k' : hget k' (hset k v m) = if eqb_bytes k k' then Some v else hget k' m.
Proof.
  induction m as [|[x a] m IH]; cbn [hset hget]; [reflexivity|]. destruct (eqb_bytes x k) eqn:E; cbn [hget].
  - apply eqb_bytes_true in E. subst x. now destruct (eqb_bytes k k').
  - destruct (eqb_bytes x k') eqn:E'; [|exact IH]. apply eqb_bytes_true in E'. subst k'. destruct (eqb_bytes k x) eqn:E2; [|reflexivity]. apply eqb_bytes_true in E2. subst k. rewrite eqb_bytes_refl in E. discriminate.
Qed.
Lemma hget_hdel {A} k (m : hmap A) k' : hget k' (hdel k m) = if eqb_bytes k k' then None else hget k' m.
Proof.
  unfold hdel. induction m as [|[x a] m IH]; cbn [filter fst hget]; [now destruct (eqb_bytes k k')|]. destruct (eqb_bytes k x) eqn:E; cbn [negb hget].
  - apply eqb_bytes_true in E. subst x. rewrite IH. now destruct (eqb_bytes k k').
  - destruct (eqb_bytes x k') eqn:E'; [|exact IH]. apply eqb_bytes_true in E'. subst k'. now rewrite E.
Qed.

Lemma read_write h f c fs h' f' : read_at h' f' (write_at h f c fs) =
  if (h' =? h) && eqb_bytes f f' then match get_folder h fs with Some _ => Some c | None => None end else read_at h' f' fs.
Proof.
  unfold read_at, write_at. rewrite get_in_folder. destruct (Z.eqb_spec h' h) as [->|_]; cbn [andb]; [|reflexivity]. destruct (get_folder h fs) as [dir|]; cbn [option_map]; [|now destruct (eqb_bytes f f')].
  rewrite hget_hset. now destruct (eqb_bytes f f').
Qed.
Lemma read_delete h f fs h' f' : read_at h' f' (delete_at h f fs) = if (h' =? h) && eqb_bytes f f' then None else read_at h' f' fs.
Proof.
  unfold read_at, delete_at. rewrite get_in_folder. destruct (Z.eqb_spec h' h) as [->|_]; cbn [andb]; [|reflexivity]. destruct (get_folder h fs) as [dir|]; cbn [option_map]; [|now destruct (eqb_bytes f f')].
  rewrite hget_hdel. now destruct (eqb_bytes f f').
Qed.

Lemma get_folder_app {A} h (fs : folders A) hash d : get_folder h (fs ++ [(hash, d)]) = match get_folder h fs with Some x => Some x | None => if h =? hash then Some d else None end.
Proof. unfold get_folder. induction fs as [|[x a] fs IH]; cbn [app bt_get]; [reflexivity|]. now destruct (h =? x). Qed.

(** ** Preparing *)

(** nothing is lost, and unless it fails the folder and the archive are there *)
Lemma prepared now a hash fs r fs' : prepare_hash_dir now a hash fs = (r, fs') ->
  (forall h f c, read_at h f fs = Some c -> read_at h f fs' = Some c) /\
  (forall h f, (h <> hash \/ is_reserved f = false) -> read_at h f fs' = read_at h f fs) /\
  (forall n h, folder_called n fs = Some h -> folder_called n fs' = Some h) /\
  (r = Ok tt -> get_folder hash fs' <> None /\
    read_at hash archive_name fs' = Some (match read_at hash archive_name fs with Some b => b | None => a_bytes a end)) /\
  (forall t, create_time_dat now = Ok t -> a_complete a = true -> r = Ok tt).
Proof.
  unfold prepare_hash_dir. intros H. destruct (make_hash_dir now hash fs) as [r1 fs1] eqn:E1.
  assert (M : (forall h f c, read_at h f fs = Some c -> read_at h f fs1 = Some c) /\ (forall h f, (h <> hash \/ is_reserved f = false) -> read_at h f fs1 = read_at h f fs) /\
    (forall n h, folder_called n fs = Some h -> folder_called n fs1 = Some h) /\ get_folder hash fs1 <> None /\ read_at hash archive_name fs1 = read_at hash archive_name fs /\
    (forall t, create_time_dat now = Ok t -> r1 = Ok tt)).
  { unfold make_hash_dir in E1. destruct (get_folder hash fs) as [dir|] eqn:G.
    - apply pair_equal_spec in E1 as [<- <-]. split; [auto|]. split; [auto|]. split; [auto|]. split; [congruence|]. auto.
    - assert (X : exists b, fs1 = fs ++ [(hash, [(time_name, b)])] /\ forall t, create_time_dat now = Ok t -> r1 = Ok tt).
      { destruct (create_time_dat now) as [b| |]; apply pair_equal_spec in E1 as [<- <-]; (eexists; split; [reflexivity|]); [reflexivity|discriminate|discriminate]. }
      destruct X as (b & -> & X). unfold read_at. setoid_rewrite get_folder_app. repeat split.
      + intros h f c. destruct (get_folder h fs); [auto|discriminate].
      + intros h f O. destruct (get_folder h fs) eqn:Gh; [reflexivity|]. destruct (Z.eqb_spec h hash) as [->|_]; [|reflexivity]. destruct O as [O|O]; [contradiction|]. cbn [hget].
        destruct (eqb_bytes time_name f) eqn:Et; [|reflexivity]. apply eqb_bytes_true in Et. subst f. discriminate O.
      + intros n h. apply folder_called_app.
      + rewrite G, Z.eqb_refl. discriminate.
      + rewrite G, Z.eqb_refl. reflexivity.
      + exact X. }
  destruct M as (M1 & M2 & M3 & M4 & M5 & M6). destruct r1 as [[]| |].
  - rewrite M5 in H. destruct (read_at hash archive_name fs) as [b|] eqn:Ra.
    + apply pair_equal_spec in H as [<- <-]. repeat split; auto.
    + apply pair_equal_spec in H as [<- <-]. repeat split.
      * intros h f c E. rewrite read_write. destruct ((h =? hash) && eqb_bytes archive_name f) eqn:X; [|auto]. apply andb_prop in X as [X1 X2]. apply Z.eqb_eq in X1. apply eqb_bytes_true in X2. subst. congruence.
      * intros h f O. rewrite read_write. destruct ((h =? hash) && eqb_bytes archive_name f) eqn:X; [|auto]. apply andb_prop in X as [X1 X2]. apply Z.eqb_eq in X1. apply eqb_bytes_true in X2. subst. destruct O as [O|O]; [contradiction|discriminate O].
      * intros n h E. rewrite (folder_called_fst _ fs1); [auto|apply in_folder_fst].
      * unfold write_at. rewrite get_in_folder, Z.eqb_refl. destruct (get_folder hash fs1); [discriminate|contradiction].
      * rewrite read_write, Z.eqb_refl, eqb_bytes_refl. cbn [andb]. destruct (get_folder hash fs1); [reflexivity|contradiction].
      * intros t _ Ca. now rewrite Ca.
  - apply pair_equal_spec in H as [<- <-]. split; [auto|]. split; [auto|]. split; [auto|]. split; [discriminate|]. intros t Ht _. discriminate (M6 t Ht).
  - apply pair_equal_spec in H as [<- <-]. split; [auto|]. split; [auto|]. split; [auto|]. split; [discriminate|]. intros t Ht _. discriminate (M6 t Ht).
Qed.

Section Files.
Context {doc : Type}.
Variable mkdiff : doc -> doc -> res (list Z).
Variable appdiff : doc -> list Z -> res doc.
Variable archive_root : list Z -> res doc.
Variable adjust : doc -> doc -> res doc.
Notation save := (save_dochy_file doc mkdiff).
Notation load := (load_dochy_file doc appdiff archive_root adjust).

(** what a successful save did *)
Lemma saved now (cur : source doc) name d ow fs fs' : plain name -> save now cur name d ow fs = (Ok tt, fs') -> exists fs1 diff,
  prepare_hash_dir now (so_archive cur) (so_hash cur) fs = (Ok tt, fs1) /\ mkdiff (so_root cur) d = Ok diff /\ fs' = write_at (so_hash cur) name diff fs1.
Proof.
  intros P. unfold save_dochy_file. destruct (prepare_hash_dir _ _ _ _) as [r fs1]. destruct r as [[]| |]; [|discriminate|discriminate]. rewrite (resolve_plain _ _ _ P).
  destruct (_ && _); [discriminate|]. destruct (mkdiff (so_root cur) d) as [diff| |]; [|discriminate|discriminate]. intros H. apply pair_equal_spec in H as [_ <-]. eauto.
Qed.

Section Trip.
Variable same later : doc -> doc -> Prop.
Hypothesis Rep : reproduces mkdiff appdiff same later.

Lemma round_trip now (cur : source doc) name d ow fs fs' : later (so_root cur) d -> plain name -> save now cur name d ow fs = (Ok tt, fs') ->
  exists r, load cur (so_hash cur) name fs' = Ok r /\ same r d.
Proof.
  intros L P H. destruct (saved _ _ _ _ _ _ _ P H) as (fs1 & diff & Ep & Ed & ->). destruct (prepared _ _ _ _ _ _ Ep) as (_ & _ & _ & Pk & _). destruct (Pk eq_refl) as [G _].
  destruct (difference _ _ _ _ Rep _ _ L) as (v & Ev & _ & Ap). rewrite Ev in Ed. apply Ok_inj in Ed. subst v. destruct (Ap _ (same_refl _ _ _ _ Rep _)) as (r & Er & Sr).
  exists r. split; [|exact Sr]. unfold load_dochy_file. rewrite Z.eqb_refl, read_write, Z.eqb_refl, eqb_bytes_refl. cbn [andb bind]. destruct (get_folder (so_hash cur) fs1); [|contradiction]. cbn [ok_or bind]. rewrite Er. reflexivity.
Qed.

Lemma other_version now (cur new : source doc) name d ow fs fs' bytes root : later (so_root cur) d -> plain name -> name <> archive_name ->
  save now cur name d ow fs = (Ok tt, fs') -> so_hash new <> so_hash cur ->
  bytes = match read_at (so_hash cur) archive_name fs with Some b => b | None => a_bytes (so_archive cur) end ->
  archive_root bytes = Ok root -> same root (so_root cur) ->
  exists r, load new (so_hash cur) name fs' = adjust (so_root new) r /\ same r d.
Proof.
  intros L P Na H N Eb Ea Sa. destruct (saved _ _ _ _ _ _ _ P H) as (fs1 & diff & Ep & Ed & ->). destruct (prepared _ _ _ _ _ _ Ep) as (_ & _ & _ & Pk & _). destruct (Pk eq_refl) as [G Ra].
  destruct (difference _ _ _ _ Rep _ _ L) as (v & Ev & _ & Ap). rewrite Ev in Ed. apply Ok_inj in Ed. subst v. destruct (Ap _ Sa) as (r & Er & Sr).
  exists r. split; [|exact Sr]. unfold load_dochy_file. destruct (Z.eqb_spec (so_hash new) (so_hash cur)) as [E|_]; [contradiction|]. rewrite !read_write, Z.eqb_refl, eqb_bytes_refl, (eqb_bytes_false _ _ Na). cbn [andb]. rewrite Ra, <- Eb. cbn [ok_or bind]. rewrite Ea. cbn [bind].
  destruct (get_folder (so_hash cur) fs1); [|contradiction]. cbn [ok_or bind]. rewrite Er. reflexivity.
Qed.

Lemma save_succeeds now (cur : source doc) name d ow fs t : later (so_root cur) d -> plain name -> create_time_dat now = Ok t -> a_complete (so_archive cur) = true ->
  ow = true \/ (is_reserved name = false /\ read_at (so_hash cur) name fs = None) -> exists fs', save now cur name d ow fs = (Ok tt, fs').
Proof.
  intros L P T C O. unfold save_dochy_file. destruct (prepare_hash_dir now (so_archive cur) (so_hash cur) fs) as [r fs1] eqn:Ep. destruct (prepared _ _ _ _ _ _ Ep) as (_ & Fr & _ & _ & Pt). rewrite (Pt t T C). rewrite (resolve_plain _ _ _ P).
  assert (X : (match read_at (so_hash cur) name fs1 with Some _ => true | None => false end) && negb ow = false).
  { destruct O as [->|[R N]]; [apply andb_false_r|]. rewrite Fr, N; [reflexivity|now right]. }
  rewrite X. destruct (difference _ _ _ _ Rep _ _ L) as (v & -> & _). eauto.
Qed.
End Trip.

Lemma no_overwrite now (cur : source doc) name d fs r fs' : save now cur name d false fs = (r, fs') ->
  (forall h f c, read_at h f fs = Some c -> read_at h f fs' = Some c) /\
  (forall h f c, resolve (so_hash cur) name fs = Some (h, f) -> read_at h f fs = Some c -> r <> Ok tt).
Proof.
  unfold save_dochy_file. destruct (prepare_hash_dir _ _ _ _) as [r1 fs1] eqn:Ep. destruct (prepared _ _ _ _ _ _ Ep) as (K & _ & M & _ & _). intros H. destruct r1 as [[]| |].
  - destruct (resolve (so_hash cur) name fs1) as [[h1 f1]|] eqn:R1.
    + destruct (read_at h1 f1 fs1) as [c1|] eqn:E1; cbn [andb negb] in H.
      * apply pair_equal_spec in H as [<- <-]. split; [exact K|discriminate].
      * split.
        -- destruct (mkdiff (so_root cur) d) as [diff| |]; apply pair_equal_spec in H as [<- <-]; [|exact K|exact K]. intros h f c E. rewrite read_write. destruct ((h =? h1) && eqb_bytes f1 f) eqn:X; [|auto].
           apply andb_prop in X as [X1 X2]. apply Z.eqb_eq in X1. apply eqb_bytes_true in X2. subst. apply K in E. congruence.
        -- intros h f c R E. apply (resolve_mono _ _ _ _ _ M) in R. rewrite R in R1. inversion R1; subst. apply K in E. congruence.
    + cbn [andb] in H. split.
      * destruct (mkdiff (so_root cur) d) as [diff| |]; apply pair_equal_spec in H as [<- <-]; exact K.
      * intros h f c R E. apply (resolve_mono _ _ _ _ _ M) in R. congruence.
  - apply pair_equal_spec in H as [<- <-]. split; [exact K|discriminate].
  - apply pair_equal_spec in H as [<- <-]. split; [exact K|discriminate].
Qed.

Lemma save_frame now (cur : source doc) name d ow fs r fs' : plain name -> save now cur name d ow fs = (r, fs') ->
  forall h f c, (h, f) <> (so_hash cur, name) -> read_at h f fs = Some c -> read_at h f fs' = Some c.
Proof.
  intros P. unfold save_dochy_file. destruct (prepare_hash_dir _ _ _ _) as [r1 fs1] eqn:Ep. destruct (prepared _ _ _ _ _ _ Ep) as (K & _). rewrite (resolve_plain _ _ _ P). intros H h f c N E. apply K in E.
  destruct r1 as [[]| |]; [|apply pair_equal_spec in H as [_ <-]; exact E|apply pair_equal_spec in H as [_ <-]; exact E].
  destruct (_ && _); [apply pair_equal_spec in H as [_ <-]; exact E|]. destruct (mkdiff (so_root cur) d) as [diff| |]; apply pair_equal_spec in H as [_ <-]; try exact E.
  rewrite read_write. destruct ((h =? so_hash cur) && eqb_bytes name f) eqn:X; [|exact E]. apply andb_prop in X as [X1 X2]. apply Z.eqb_eq in X1. apply eqb_bytes_true in X2. subst. contradiction.
Qed.

Lemma remove_flat hash name fs r fs' : ~ In 47 name -> remove_dochy_file hash name fs = (r, fs') ->
  (forall h f, is_reserved f = true -> read_at h f fs' = read_at h f fs) /\
  (forall h f, (h, f) <> (hash, name) -> read_at h f fs' = read_at h f fs) /\
  (r = Ok tt -> read_at hash name fs <> None /\ read_at hash name fs' = None).
Proof.
  intros N. unfold remove_dochy_file. destruct (is_reserved name) eqn:R; [intros H; apply pair_equal_spec in H as [<- <-]; repeat split; auto; discriminate|].
  destruct (resolve hash name fs) as [[h1 f1]|] eqn:E; [|intros H; apply pair_equal_spec in H as [<- <-]; repeat split; auto; discriminate].
  apply (resolve_flat _ _ _ _ _ N) in E as [-> ->]. destruct (read_at hash name fs) as [c|] eqn:Ec; intros H; apply pair_equal_spec in H as [<- <-]; [|repeat split; auto; discriminate].
  assert (D : forall h f, (h, f) <> (hash, name) -> read_at h f (delete_at hash name fs) = read_at h f fs).
  { intros h f Nf. rewrite read_delete. destruct ((h =? hash) && eqb_bytes name f) eqn:X; [|reflexivity]. apply andb_prop in X as [X1 X2]. apply Z.eqb_eq in X1. apply eqb_bytes_true in X2. subst. contradiction. }
  split; [|split; [exact D|]].
  - intros h f Rf. apply D. intros X. inversion X; subst. congruence.
  - intros _. split; [discriminate|]. rewrite read_delete, Z.eqb_refl, eqb_bytes_refl. reflexivity.
Qed.

(** ** Listed entries *)

Variable op : options.
Notation load_data := (load_history_file_data doc appdiff archive_root adjust op).

Lemma listed order fs : forall l hash h p, list_entries order fs = Ok l -> In (hash, h, p) l ->
  create_file_history (map fst (files_of hash fs)) = Ok h /\ In p (list_files h).
Proof.
  unfold list_entries. induction order as [|x order IH]; cbn [fold_right]; intros l hash h p H I; [apply Ok_inj in H; subst l; destruct I|].
  destruct (fold_right _ (Ok []) order) as [rest| |] eqn:E; [|discriminate|discriminate]. cbn [bind] in H. destruct (create_file_history (map fst (files_of x fs))) as [hx| |] eqn:Ch; [|apply Ok_inj in H; subst l; eapply IH; [reflexivity|exact I]|discriminate].
  apply Ok_inj in H. subst l. apply in_app_or in I as [I|I]; [|eapply IH; [reflexivity|exact I]]. apply in_map_iff in I as (q & Eq & Iq). inversion Eq; subst. auto.
Qed.

Variable same later : doc -> doc -> Prop.
Hypothesis Rep : reproduces mkdiff appdiff same later.
Hypothesis Built : exists b, build b = Ok op.

Lemma entry_current (cur : source doc) junk n s F order fs l h p d id :
  reach mkdiff appdiff later (so_root cur) op (sound_save op) junk n s F -> Z.of_nat n + 1 < 100000000 ->
  get_folder (so_hash cur) fs = Some (s_dir doc s) -> list_entries order fs = Ok l -> In (so_hash cur, h, p) l -> In (p, d) F ->
  exists r, load_data cur id (so_hash cur, h, p) (Pst fs (s_cache doc s) (s_cur doc s)) = (Ok r, Pst fs (s_cache doc s) (Some (id, p))) /\ same r d.
Proof.
  intros R Sm G El I Ip. destruct (listed _ _ _ _ _ _ El I) as [Ch _]. unfold files_of in Ch. rewrite G in Ch.
  destruct (load_reached mkdiff appdiff same later Rep (so_root cur) op Built junk n s F id p d R Sm Ip) as (r & E & Sr). exists r. split; [|exact Sr]. unfold load_history_file_data, load_entry, load_impl. rewrite Z.eqb_refl. cbn [negb ps_project ps_cache ps_cur]. unfold files_of. rewrite G.
  unfold load_history_file in E. rewrite Ch in E. replace (St doc (s_dir doc s) (s_cache doc s) (s_cur doc s)) with s by (destruct s; reflexivity). unfold bindM at 1 in E. destruct (HistModel.load doc appdiff (so_root cur) op (filename p) h s) as [[x| |] s1]; [|discriminate E|discriminate E].
  cbn [fst]. unfold bindM, set_cur, ret in E. apply (f_equal fst) in E. cbn [fst] in E. apply Ok_inj in E. subst x. reflexivity.
Qed.
End Files.
