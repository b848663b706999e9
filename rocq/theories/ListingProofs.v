(** Proofs about listings. *)
From Coq Require Import Permutation Sorted.
From Verif Require Import Base StringCompactionModel StringCompactionProofs FileNameModel FileNameProofs DocModel DiffProofs PhaseModel TreeModel HistModel RemoveModel FolderModel FolderProofs ListingModel ListingSpec.

Lemma entry_cases e : opens e \/ fails e \/ foreign e \/ crashing e.
Proof.
  destruct e as [[name t]|]; [|right; left; left; reflexivity]. destruct t as [c| |].
  - pose proof (folder_exact name) as F. destruct (folder_name_to_hash name) as [[h|]| |] eqn:E; [destruct F as [B ->]| | |].
    + destruct c as [d|]; [left; exists h, d; split; [exact B|reflexivity]|right; left; right; right; exists h; split; [exact B|reflexivity]].
    + right; right; left. exists name, (TFolder c). split; [reflexivity|right; split; [eauto|exact E]].
    + destruct F.
    + right; right; right. exists name, c. split; [reflexivity|exact E].
  - right; right; left. exists name, TOther. split; [reflexivity|left; reflexivity].
  - right; left; right; left. exists name. reflexivity.
Qed.

Lemma next_opens e hash d l : version_folder e hash (Some d) -> find_next_dir (e :: l) = (Ok (Some (d, hash)), l).
Proof. intros [B ->]. cbn [find_next_dir]. destruct (folder_name _ B) as (_ & _ & ->). reflexivity. Qed.
Lemma next_fails e l : fails e -> find_next_dir (e :: l) = (Err, l).
Proof. intros [->|[[name ->]|(h & B & ->)]]; [reflexivity|reflexivity|]. cbn [find_next_dir]. destruct (folder_name _ B) as (_ & _ & ->). reflexivity. Qed.
Lemma next_foreign e l : foreign e -> find_next_dir (e :: l) = find_next_dir l.
Proof. intros (name & t & -> & [->|[[c ->] E]]); [reflexivity|]. cbn [find_next_dir]. rewrite E. reflexivity. Qed.
Lemma next_crashing e l : crashing e -> find_next_dir (e :: l) = (Panic, l).
Proof. intros (name & c & -> & E). cbn [find_next_dir]. rewrite E. reflexivity. Qed.
Lemma next_skip pre l : Forall foreign pre -> find_next_dir (pre ++ l) = find_next_dir l.
Proof. induction 1 as [|e pre F _ IH]; [reflexivity|]. cbn [app]. now rewrite next_foreign. Qed.
Lemma next_shorter l : match find_next_dir l with (Ok None, r) => True | (_, r) => (length r < length l)%nat end.
Proof.
  induction l as [|e l IH]; [exact Logic.I|]. destruct (entry_cases e) as [(h & d & O)|[F|[F|C]]].
  - rewrite (next_opens _ _ _ _ O). cbn [length]. lia.
  - rewrite (next_fails _ _ F). cbn [length]. lia.
  - rewrite (next_foreign _ _ F). destruct (find_next_dir l) as [[[?|]| |] r]; cbn [length]; try exact Logic.I; lia.
  - rewrite (next_crashing _ _ C). cbn [length]. lia.
Qed.

Lemma next_file_step fuel rest dir hash : next_file (S fuel) (rest, dir, hash) =
  match dir with
  | Some e :: dir => (Some (data_from hash e), (rest, dir, hash))
  | None :: dir => (Some Err, (rest, dir, hash))
  | [] => match find_next_dir rest with
          | (Ok (Some (dir, hash)), rest) => next_file fuel (rest, dir, hash)
          | (Ok None, rest) => (None, (rest, [], hash))
          | (Err, rest) => (Some Err, (rest, [], hash))
          | (Panic, rest) => (Some Panic, (rest, [], hash))
          end
  end.
Proof. destruct dir as [|[e|] dir]; reflexivity. Qed.
Lemma next_file_fuel fuel : forall c, (length (fst (fst c)) < fuel)%nat -> next_file (S fuel) c = next_file fuel c.
Proof.
  induction fuel as [|fuel IH]; intros [[rest dir] hash] L; cbn [fst] in L; [lia|]. rewrite (next_file_step (S fuel)), (next_file_step fuel).
  destruct dir as [|[e|] dir]; [|reflexivity|reflexivity]. pose proof (next_shorter rest) as Sh.
  destruct (find_next_dir rest) as [[[[d h]|]| |] r]; try reflexivity. apply IH. cbn [fst]. lia.
Qed.

(* ------------------------------------------------------------------ *)

Lemma collect_opens fuel e h d l hash : version_folder e h (Some d) -> collect fuel (e :: l, [], hash) = collect fuel (l, d, h).
Proof.
  intros O. destruct fuel as [|fuel]; [reflexivity|]. cbn [collect fst length].
  change (next_file (S (S (S (length l)))) (e :: l, [], hash)) with
    (match find_next_dir (e :: l) with (Ok (Some (dir, hash)), rest) => next_file (S (S (length l))) (rest, dir, hash) | (Ok None, rest) => (None, (rest, [], hash))
     | (Err, rest) => (Some Err, (rest, [], hash)) | (Panic, rest) => (Some Panic, (rest, [], hash)) end).
  rewrite (next_opens _ _ _ _ O). reflexivity.
Qed.
Lemma collect_foreign fuel e l hash : foreign e -> collect fuel (e :: l, [], hash) = collect fuel (l, [], hash).
Proof.
  intros F. destruct fuel as [|fuel]; [reflexivity|]. cbn [collect fst length].
  assert (E : next_file (S (S (S (length l)))) (e :: l, [], hash) = next_file (S (S (length l))) (l, [], hash)); [|rewrite E; reflexivity].
  rewrite <- (next_file_fuel (S (S (length l)))) by (cbn [fst]; lia). remember (S (S (length l))) as n. cbn [next_file]. rewrite (next_foreign _ _ F). reflexivity.
Qed.
Lemma collect_fails fuel e l hash : fails e -> collect (S fuel) (e :: l, [], hash) = collect fuel (l, [], hash).
Proof. intros F. cbn [collect fst length]. remember (S (S (length l))) as n. cbn [next_file]. rewrite (next_fails _ _ F). reflexivity. Qed.
Lemma collect_crashing fuel e l hash : crashing e -> collect (S fuel) (e :: l, [], hash) = Panic.
Proof. intros F. cbn [collect fst length]. remember (S (S (length l))) as n. cbn [next_file]. rewrite (next_crashing _ _ F). reflexivity. Qed.
Lemma collect_entry fuel e dir l hash : collect (S fuel) (l, e :: dir, hash) = (r <- collect fuel (l, dir, hash) ; Ok (shown hash e ++ r)).
Proof.
  cbn [collect fst]. remember (S (length l)) as n. cbn [next_file]. destruct e as [[name k [m|]]|].
  - unfold data_from. cbn [in_meta ok_or bind in_name fd_name shown]. destruct (collect fuel (l, dir, hash)) as [r| |]; cbn [bind]; [|reflexivity|reflexivity]. now destruct (is_reserved name).
  - unfold data_from. cbn [in_meta ok_or bind shown app]. now destruct (collect fuel (l, dir, hash)).
  - cbn [shown app]. now destruct (collect fuel (l, dir, hash)).
Qed.
Lemma collect_end fuel hash : collect fuel ([], [], hash) = Ok [].
Proof. destruct fuel; reflexivity. Qed.

Lemma entries_cons e l : entries (e :: l) = S (match e with Some (_, TFolder (Some d)) => length d | _ => 0 end + entries l).
Proof. reflexivity. Qed.

Lemma opens_not e : opens e -> ~ fails e /\ ~ foreign e /\ ~ crashing e.
Proof.
  intros (h & d & O). pose proof (next_opens _ _ _ [] O) as E. repeat split; intros F.
  - rewrite (next_fails _ _ F) in E. discriminate E.
  - rewrite (next_foreign _ _ F) in E. discriminate E.
  - rewrite (next_crashing _ _ F) in E. discriminate E.
Qed.
Lemma crashing_not e : crashing e -> ~ fails e /\ ~ foreign e /\ ~ opens e.
Proof.
  intros O. pose proof (next_crashing _ [] O) as E. repeat split; intros F.
  - rewrite (next_fails _ _ F) in E. discriminate E.
  - rewrite (next_foreign _ _ F) in E. discriminate E.
  - apply opens_not in F as (_ & _ & F). contradiction.
Qed.

(** a folder in the middle is read to its end, then the others *)
Lemma collect_dir dir l hash v : (forall fuel, (entries l < fuel)%nat -> collect fuel (l, [], hash) = Ok v) ->
  forall fuel, (entries l + length dir < fuel)%nat -> collect fuel (l, dir, hash) = Ok (flat_map (shown hash) dir ++ v).
Proof.
  intros H. induction dir as [|e dir IH]; intros fuel L; [cbn [flat_map app]; apply H; cbn [length] in L; lia|].
  destruct fuel as [|fuel]; [lia|]. cbn [length] in L. rewrite collect_entry, IH by lia. cbn [bind flat_map]. now rewrite app_assoc.
Qed.
Lemma collect_all l v : collected l v -> forall hash fuel, (entries l < fuel)%nat -> collect fuel (l, [], hash) = Ok v.
Proof.
  induction 1 as [|e h d l v O C IH|e l v [F|F] C IH]; intros hash fuel L.
  - apply collect_end.
  - rewrite (collect_opens _ _ _ _ _ _ O). apply collect_dir; [intros; apply IH; assumption|]. rewrite entries_cons in L. destruct O as [_ ->]. lia.
  - destruct fuel as [|fuel]; [lia|]. rewrite (collect_fails _ _ _ _ F). rewrite entries_cons in L. apply IH. lia.
  - rewrite (collect_foreign _ _ _ _ F). rewrite entries_cons in L. apply IH. lia.
Qed.

Lemma collect_dir_panic dir l hash : (forall fuel, (entries l < fuel)%nat -> collect fuel (l, [], hash) = Panic) ->
  forall fuel, (entries l + length dir < fuel)%nat -> collect fuel (l, dir, hash) = Panic.
Proof.
  intros H. induction dir as [|e dir IH]; intros fuel L; [apply H; cbn [length] in L; lia|].
  destruct fuel as [|fuel]; [lia|]. cbn [length] in L. rewrite collect_entry, IH by lia. reflexivity.
Qed.
Lemma collect_panic l : Exists crashing l -> forall hash fuel, (entries l < fuel)%nat -> collect fuel (l, [], hash) = Panic.
Proof.
  induction l as [|e l IH]; intros X hash fuel L; [inversion X|]. rewrite entries_cons in L. destruct fuel as [|fuel]; [lia|].
  destruct (entry_cases e) as [O|[F|[F|C]]]; [| | |apply collect_crashing; exact C]; (inversion X as [? ? C|? ? T]; subst; [exfalso; apply crashing_not in C as (?&?&?); contradiction|]).
  - destruct O as (h & d & O). rewrite (collect_opens _ _ _ _ _ _ O). apply collect_dir_panic; [intros; apply IH; assumption|]. destruct O as [_ ->]. lia.
  - rewrite (collect_fails _ _ _ _ F). apply IH; [exact T|lia].
  - rewrite (collect_foreign _ _ _ _ F). apply IH; [exact T|lia].
Qed.

(* ------------------------------------------------------------------ *)
(** * Order *)

Lemma time_leb_le a b : time_leb a b = true <-> time_le a b.
Proof. unfold time_leb, time_le. rewrite orb_true_iff, andb_true_iff, Z.ltb_lt, Z.eqb_eq, Z.leb_le. reflexivity. Qed.
Lemma time_leb_not a b : time_leb a b = false -> time_le b a /\ ~ (fst a = fst b /\ snd a = snd b).
Proof.
  unfold time_leb, time_le. intros H. apply orb_false_elim in H as [A B]. apply Z.ltb_ge in A. apply andb_false_elim in B as [B|B]; [apply Z.eqb_neq in B|apply Z.leb_gt in B]; split; lia.
Qed.
Lemma time_le_trans a b c : time_le a b -> time_le b c -> time_le a c.
Proof. unfold time_le. lia. Qed.

Lemma insert_perm x l : Permutation (x :: l) (insert_file x l).
Proof.
  induction l as [|y l IH]; [reflexivity|]. cbn [insert_file]. destruct (time_leb _ _); [reflexivity|]. rewrite perm_swap. now constructor.
Qed.
Lemma insert_sorted x l : StronglySorted by_time l -> StronglySorted by_time (insert_file x l).
Proof.
  induction 1 as [|y l S IH F]; [repeat constructor|]. cbn [insert_file]. destruct (time_leb _ _) eqn:E.
  - apply time_leb_le in E. constructor; [constructor; assumption|]. constructor; [exact E|]. eapply Forall_impl; [|exact F]. intros z Z. eapply time_le_trans; eassumption.
  - apply time_leb_not in E as [E _]. constructor; [exact IH|]. eapply Permutation_Forall; [apply insert_perm|]. constructor; assumption.
Qed.
Lemma insert_same x l t : filter (at_time t) (insert_file x l) = filter (at_time t) (x :: l).
Proof.
  induction l as [|y l IH]; [reflexivity|]. cbn [insert_file]. destruct (time_leb _ _) eqn:E; [reflexivity|]. cbn [filter] in *. rewrite IH.
  apply time_leb_not in E as [_ E]. destruct (at_time t x) eqn:X, (at_time t y) eqn:Y; try reflexivity. exfalso. apply E.
  unfold at_time in X, Y. apply andb_prop in X as [X1 X2]. apply andb_prop in Y as [Y1 Y2]. apply Z.eqb_eq in X1, X2, Y1, Y2. split; congruence.
Qed.
Lemma sort_ordered v : ordered v (sort_files v).
Proof.
  induction v as [|x v (S & P & F)]; [repeat split; constructor|]. cbn [sort_files fold_right]. fold (sort_files v). split; [now apply insert_sorted|]. split.
  - rewrite P at 1. apply insert_perm.
  - intros t. rewrite insert_same. cbn [filter]. now rewrite F.
Qed.

(* ------------------------------------------------------------------ *)
(** * What is listed *)

Lemma listed pre e l v : Forall foreign pre -> opens e -> collected (e :: l) v -> exists r, list_dochy_files (Some (pre ++ e :: l)) = Ok r /\ ordered v r.
Proof.
  intros P (h & d & O) C. inversion C as [|? h' d' ? w O' C'|? ? ? N ?]; subst; [|exfalso; destruct (opens_not e) as (A & B & _); [exists h, d; exact O|]; destruct N; contradiction].
  assert (E : h' = h /\ d' = d).
  { pose proof (next_opens _ _ _ [] O) as X. rewrite (next_opens _ _ _ [] O') in X. injection X as -> ->. split; reflexivity. }
  destruct E as [-> ->]. eexists. split; [|apply sort_ordered]. unfold list_dochy_files. cbn [ok_or bind]. rewrite (next_skip _ _ P), (next_opens _ _ _ _ O).
  rewrite (collect_dir _ _ _ w); [reflexivity|intros; now apply collect_all|lia].
Qed.
Lemma none_listed l : Forall foreign l -> list_dochy_files (Some l) = Ok [].
Proof. intros F. unfold list_dochy_files. cbn [ok_or bind]. rewrite <- (app_nil_r l), (next_skip _ _ F). reflexivity. Qed.
Lemma not_listed pre e l : Forall foreign pre -> fails e -> list_dochy_files (Some (pre ++ e :: l)) = Err.
Proof. intros P F. unfold list_dochy_files. cbn [ok_or bind]. rewrite (next_skip _ _ P), (next_fails _ _ F). reflexivity. Qed.
Lemma crashes pre e l : Forall foreign pre -> crashing e \/ opens e /\ Exists crashing l -> list_dochy_files (Some (pre ++ e :: l)) = Panic.
Proof.
  intros P [C|[(h & d & O) C]]; unfold list_dochy_files; cbn [ok_or bind]; rewrite (next_skip _ _ P); [rewrite (next_crashing _ _ C); reflexivity|].
  rewrite (next_opens _ _ _ _ O), collect_dir_panic; [reflexivity|intros; now apply collect_panic|lia].
Qed.

Lemma collectable l : ~ Exists crashing l -> exists v, collected l v.
Proof.
  induction l as [|e l IH]; intros N; [eexists; constructor|]. destruct IH as [v C]; [intros X; apply N; now right|].
  destruct (entry_cases e) as [(h & d & O)|[F|[F|X]]].
  - eexists. eapply col_folder; eassumption.
  - exists v. apply col_other; [now left|exact C].
  - exists v. apply col_other; [now right|exact C].
  - exfalso. apply N. now left.
Qed.

Lemma in_shown x hash e : In x (shown hash e) <->
  exists i m, e = Some i /\ in_meta i = Some m /\ is_reserved (in_name i) = false /\ x = FileData hash (me_modified m) (in_name i) (me_len m).
Proof.
  split.
  - destruct e as [[name k [m|]]|]; cbn [shown]; try (intros []). destruct (is_reserved name) eqn:R; [intros []|]. intros [<-|[]]. exists (Inner name k (Some m)), m.
    cbn [in_meta in_name]. auto.
  - intros ([name k me] & m & -> & E & R & ->). cbn [in_meta in_name] in *. subst me. cbn [shown]. rewrite R. left. reflexivity.
Qed.
Lemma version_unique e h c h' c' : version_folder e h c -> version_folder e h' c' -> h = h' /\ c = c'.
Proof.
  intros [B E] [B' E']. subst e. apply Some_inj, pair_equal_spec in E' as [E E2]. split; [|now apply (f_equal (fun t => match t with TFolder c => c | _ => None end)) in E2]. apply folder_name in B as (_ & _ & B). apply folder_name in B' as (_ & _ & B'). rewrite E, B' in B. apply Ok_inj, Some_inj in B. now symmetry.
Qed.
Lemma in_collected l v x : collected l v -> (In x v <->
  exists e d i m, In e l /\ version_folder e (fd_hash x) (Some d) /\ In (Some i) d /\ in_meta i = Some m /\ is_reserved (in_name i) = false /\
    x = FileData (fd_hash x) (me_modified m) (in_name i) (me_len m)).
Proof.
  induction 1 as [|e h d l v O C IH|e l v N C IH].
  - split; [intros []|]. intros (e & d & i & m & [] & _).
  - rewrite in_app_iff, IH, in_flat_map. split.
    + intros [(oi & I & S)|(e' & d' & i & m & I & R)]; [|exists e', d', i, m; split; [now right|exact R]].
      apply in_shown in S as (i & m & -> & Em & R & ->). exists e, d, i, m. cbn [fd_hash]. split; [now left|]. auto 10.
    + intros (e' & d' & i & m & [<-|I] & V & Id & Em & R & X); [|right; exists e', d', i, m; auto 10].
      destruct (version_unique _ _ _ _ _ O V) as [E1 E2]. injection E2 as <-. left. exists (Some i). split; [exact Id|]. apply in_shown. exists i, m. split; [reflexivity|]. split; [exact Em|]. split; [exact R|]. rewrite E1. exact X.
  - rewrite IH. split.
    + intros (e' & d' & i & m & I & R). exists e', d', i, m. split; [now right|exact R].
    + intros (e' & d' & i & m & [<-|I] & V & R); [|exists e', d', i, m; auto]. exfalso. destruct (opens_not e) as (A & B & _); [eexists; eexists; exact V|]. destruct N; contradiction.
Qed.

(* ------------------------------------------------------------------ *)
(** * Projects *)

Lemma read_at_in h name (fs : project) : NoDup (map fst fs) -> (read_at h name fs <> None <-> exists dir, In (h, dir) fs /\ In name (map fst dir)).
Proof.
  intros N. unfold read_at, get_folder. split.
  - intros H. destruct (bt_get h fs) as [dir|] eqn:E; [|congruence]. exists dir. split.
    + clear H N. induction fs as [|[h' d'] fs IH]; cbn [bt_get] in E; [discriminate|]. destruct (Z.eqb_spec h h') as [Eh|_]; [left; subst h'; apply Some_inj in E; now subst d'|right; now apply IH].
    + destruct (hget name dir) as [c|] eqn:G; [|congruence]. apply hget_in in G. now apply (in_map fst) in G.
  - intros (dir & I & J). assert (E : bt_get h fs = Some dir).
    { clear J. induction fs as [|[h' d'] fs IH]; [destruct I|]. cbn [bt_get]. cbn [map fst] in N. inversion N as [|? ? N1 N2]; subst. destruct I as [X|I].
      - injection X as -> ->. now rewrite Z.eqb_refl.
      - destruct (Z.eqb_spec h h') as [->|_]; [exfalso; apply N1; now apply (in_map fst) in I|now apply IH]. }
    rewrite E. clear E I N fs. induction dir as [|[k c] dir IH]; [destruct J|]. cbn [hget]. destruct (eqb_bytes k name) eqn:E; [congruence|].
    destruct J as [X|J]; [cbn [fst] in X; subst k; rewrite FolderProofs.eqb_bytes_refl in E; discriminate E|now apply IH].
Qed.

Lemma foreign_no_version e h c : foreign e -> ~ version_folder e h c.
Proof.
  intros F V. pose proof (next_foreign e [] F) as E. destruct c as [d|].
  - rewrite (next_opens _ _ _ [] V) in E. discriminate E.
  - rewrite (next_fails e []) in E; [discriminate E|]. right; right. exists h. exact V.
Qed.

Lemma lists_no_crash fs l : lists fs l -> ~ Exists crashing l.
Proof.
  intros (own & others & P & F & O) X. apply Exists_exists in X as (e & I & C). apply (Permutation_in _ P), in_app_or in I as [I|I].
  - assert (opens e) as Op; [|apply opens_not in Op as (_ & _ & Op); contradiction].
    clear P O. induction F as [|f e' fs own (d & V & _) F IH]; [destruct I|]. destruct I as [->|I]; [|now apply IH]. exists (fst f), d. exact V.
  - rewrite Forall_forall in O. apply O in I. apply crashing_not in C as (_ & C & _). contradiction.
Qed.

(** the first entry that is not foreign, if any *)
Lemma first_own l : Forall foreign l \/ exists pre e r, l = pre ++ e :: r /\ Forall foreign pre /\ ~ foreign e.
Proof.
  induction l as [|e l IH]; [left; constructor|]. destruct (entry_cases e) as [O|[O|[O|O]]].
  - right. exists [], e, l. split; [reflexivity|]. split; [constructor|]. now apply opens_not in O.
  - right. exists [], e, l. split; [reflexivity|]. split; [constructor|]. intros F. pose proof (next_foreign e [] F) as E. rewrite (next_fails _ _ O) in E. discriminate E.
  - destruct IH as [F|(pre & e' & r & -> & F & N)]; [left; now constructor|]. right. exists (e :: pre), e', r. split; [reflexivity|]. split; [now constructor|exact N].
  - right. exists [], e, l. split; [reflexivity|]. split; [constructor|]. now apply crashing_not in O.
Qed.

Lemma lists_in fs l e : lists fs l -> In e l -> opens e \/ foreign e.
Proof.
  intros (own & others & P & F & O) I. apply (Permutation_in _ P), in_app_or in I as [I|I]; [left|right; rewrite Forall_forall in O; now apply O].
  clear P O. induction F as [|f e' fs own (d & V & _) F IH]; [destruct I|]. destruct I as [->|I]; [|now apply IH]. exists (fst f), d. exact V.
Qed.

Lemma collected_foreign pre l v : Forall foreign pre -> collected l v -> collected (pre ++ l) v.
Proof. induction 1 as [|e pre F _ IH]; intros C; [exact C|]. cbn [app]. apply col_other; auto. Qed.

Lemma project_collected fs l : lists fs l -> exists v r, collected l v /\ list_dochy_files (Some l) = Ok r /\ ordered v r.
Proof.
  intros L. destruct (first_own l) as [F|(pre & e & t & -> & F & N)].
  - exists [], []. split; [|split; [now apply none_listed|apply (sort_ordered [])]]. rewrite <- (app_nil_r l). apply collected_foreign; [exact F|constructor].
  - assert (O : opens e) by (destruct (lists_in _ _ e L) as [O|O]; [apply in_or_app; right; now left|exact O|contradiction]).
    destruct (collectable (e :: t)) as [v C]. { intros X. apply (lists_no_crash _ _ L). apply Exists_app. now right. }
    destruct (listed _ _ _ _ F O C) as (r & E & R). exists v, r. split; [now apply collected_foreign|]. split; assumption.
Qed.

Lemma in_lists fs l h name : lists fs l ->
  ((exists dir, In (h, dir) fs /\ In name (map fst dir)) <-> exists e d i, In e l /\ version_folder e h (Some d) /\ In (Some i) d /\ in_name i = name) /\
  (forall e d i, In e l -> version_folder e h (Some d) -> In (Some i) d -> in_meta i <> None).
Proof.
  intros (own & others & P & F & O).
  assert (A : forall e d, In e l -> version_folder e h (Some d) -> In e own).
  { intros e d I V. apply (Permutation_in _ P), in_app_or in I as [I|I]; [exact I|]. exfalso. rewrite Forall_forall in O. apply (foreign_no_version _ _ _ (O _ I) V). }
  assert (B : forall e, In e own -> In e l) by (intros e I; apply (Permutation_in _ (Permutation_sym P)), in_or_app; now left).
  assert (G : forall e h d, In e own -> version_folder e h (Some d) -> exists dir files, In (h, dir) fs /\ Permutation d (map Some files) /\ map in_name files = map fst dir /\ Forall (fun i => in_meta i <> None) files).
  { clear - F. induction F as [|[h' dir] e' fs own (d' & V & files & Pf & Nf & Mf) F IH]; intros e h d I W; [destruct I|]. destruct I as [->|I].
    - cbn [fst snd] in *. destruct (version_unique _ _ _ _ _ V W) as [<- X]. injection X as <-. exists dir, files. split; [now left|auto].
    - destruct (IH e h d I W) as (dir1 & files1 & I1 & R). exists dir1, files1. split; [now right|exact R]. }
  assert (D : forall dir, In (h, dir) fs -> exists e d files, In e own /\ version_folder e h (Some d) /\ Permutation d (map Some files) /\ map in_name files = map fst dir).
  { clear - F. induction F as [|[h' dir'] e' fs own (d' & V & files & Pf & Nf & Mf) F IH]; intros dir I; [destruct I|]. destruct I as [X|I].
    - injection X as <- <-. exists e', d', files. cbn [fst snd] in *. split; [now left|auto].
    - destruct (IH dir I) as (e1 & d1 & f1 & I1 & R). exists e1, d1, f1. split; [now right|exact R]. }
  split; [split|].
  - intros (dir & I & J). destruct (D _ I) as (e & d & files & Ie & V & Pd & Nf). rewrite <- Nf in J. apply in_map_iff in J as (i & Ni & Ii).
    exists e, d, i. split; [now apply B|]. split; [exact V|]. split; [|exact Ni]. apply (Permutation_in _ (Permutation_sym Pd)). now apply in_map.
  - intros (e & d & i & I & V & J & <-). destruct (G e h d (A _ _ I V) V) as (dir & files & If & Pd & Nf & _). exists dir. split; [exact If|]. rewrite <- Nf. apply in_map.
    apply (Permutation_in _ Pd), in_map_iff in J as (i' & X & J). injection X as ->. exact J.
  - intros e d i I V J. destruct (G e h d (A _ _ I V) V) as (dir & files & If & Pd & Nf & M). rewrite Forall_forall in M. apply M.
    apply (Permutation_in _ Pd), in_map_iff in J as (i' & X & J). injection X as ->. exact J.
Qed.

Lemma project_listed (fs : project) l : NoDup (map fst fs) -> lists fs l -> exists r, list_dochy_files (Some l) = Ok r /\ StronglySorted by_time r /\
  forall h name, (exists x, In x r /\ fd_hash x = h /\ fd_name x = name) <-> read_at h name fs <> None /\ is_reserved name = false.
Proof.
  intros N L. destruct (project_collected _ _ L) as (v & r & C & E & S & P & _). exists r. split; [exact E|]. split; [exact S|]. intros h name.
  rewrite (read_at_in _ _ _ N). destruct (in_lists fs l h name L) as [-> M]. split.
  - intros (x & I & <- & <-). apply (Permutation_in _ (Permutation_sym P)), (in_collected _ _ _ C) in I as (e & d & i & m & Ie & V & Id & Em & R & X).
    assert (Xn : fd_name x = in_name i) by (rewrite X; reflexivity). rewrite Xn. split; [|exact R]. exists e, d, i. auto.
  - intros [(e & d & i & Ie & V & Id & <-) R]. destruct (in_meta i) as [m|] eqn:Em; [|exfalso; now apply (M e d i)].
    exists (FileData h (me_modified m) (in_name i) (me_len m)). cbn [fd_hash fd_name]. split; [|split; reflexivity]. apply (Permutation_in _ P), (in_collected _ _ _ C).
    exists e, d, i, m. cbn [fd_hash]. auto 10.
Qed.
