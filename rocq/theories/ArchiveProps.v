(** C39 archives round-trip, C40 what is hashed, C48 where the sources lie. *)
From Coq Require Import Sorting.Permutation.
From Verif Require Import Base CompactionModel CompactionSpec ArchiveModel ArchiveSpec ArchiveProofs ArchiveWireProofs.

(* ------------------------------------------------------------------ *)
(** * C39 *)

(** For every converter, compressor and hash function.  The compressor's contract:
    what it made decompresses to what it was given. *)

(** Whatever threads do, an archive is read the same way: its files one after
    another, or an error. *)
Theorem C39_schedule : forall T convert decompress H hash_new hash_write hash_finish heads input n s r,
  run T convert decompress H hash_write hash_finish heads (reading T H hash_new heads input) n s -> s_result s = Some r ->
  r = read_result convert hash_new hash_write hash_finish decompress heads input.
Proof. intros T cv dc H. exact (reading_result cv dc). Qed.
Print Assumptions C39_schedule.

(** Until the function has returned some thread can go on. *)
Theorem C39_no_deadlock : forall T convert decompress H hash_new hash_write hash_finish heads input n s,
  run T convert decompress H hash_write hash_finish heads (reading T H hash_new heads input) n s -> s_result s = None ->
  exists s', step T convert decompress H hash_write hash_finish heads s s'.
Proof. intros T cv dc H. exact (reading_goes_on cv dc). Qed.
Print Assumptions C39_no_deadlock.

(** When no thread can go on, the function has returned, the archiving thread has ended
    (also if the function returned an error before reading all files), and so have all
    tasks. *)
Theorem C39_threads_end : forall T convert decompress H hash_new hash_write hash_finish heads input n s,
  run T convert decompress H hash_write hash_finish heads (reading T H hash_new heads input) n s ->
  (forall s', ~ step T convert decompress H hash_write hash_finish heads s s') ->
  s_result s <> None /\ s_arch s = Ended /\ (forall buf, ~ In (Compressed buf) (s_slots s)) /\ (forall v, ~ In (Archived v) (s_slots s)).
Proof. intros T cv dc H. exact (reading_all_end cv dc). Qed.
Print Assumptions C39_threads_end.

(** All threads together make at most ten steps for each file and nine more. *)
Theorem C39_ends : forall T convert decompress H hash_new hash_write hash_finish heads input n s,
  run T convert decompress H hash_write hash_finish heads (reading T H hash_new heads input) n s ->
  (n <= 10 * length heads + 9)%nat.
Proof. intros T cv dc H. exact (reading_bound cv dc). Qed.
Print Assumptions C39_ends.

(** Whatever order the compressed files arrive in and whatever the threads of the
    reader do, what was written is read back: paths, contents, converted data, hash. *)
Theorem C39_round_trip : forall T convert compress decompress H hash_new hash_write hash_finish files arrivals bytes rest r,
  storable files ->
  (forall x c, compress x = Some c -> decompress c = Some x /\ zlen c < 2 ^ 63) ->
  let data := data_of (T := T) (H := H) convert hash_new hash_write hash_finish files in
  Permutation arrivals (map (compressed T compress) (d_tree data)) ->
  write_archive arrivals = Ok bytes ->
  (read_archive T convert decompress H hash_new hash_write hash_finish (bytes ++ rest) r <-> r = Ok data).
Proof. intros T cv cp dc H. exact (round_trip cv cp dc). Qed.
Print Assumptions C39_round_trip.

(** Writing succeeds, unless the compressor fails. *)
Theorem C39_written : forall T convert compress H hash_new hash_write hash_finish files arrivals,
  storable files ->
  (forall x c, compress x = Some c -> zlen c < 2 ^ 63) ->
  Permutation arrivals (map (compressed T compress) (d_tree (data_of (T := T) (H := H) convert hash_new hash_write hash_finish files))) ->
  (Forall (fun f => compress (snd f) <> None) files -> exists bytes, write_archive arrivals = Ok bytes) /\
  (Exists (fun f => compress (snd f) = None) files -> write_archive arrivals = Err).
Proof.
  intros T convert compress H hash_new hash_write hash_finish files arrivals St C P. split.
  - intros F. destruct (write_succeeds convert compress (fun _ => None) hash_new hash_write hash_finish files arrivals St P) as (items & bytes & _ & W & _); [|eauto].
    eapply Forall_impl; [|exact F]. intros f N. destruct (compress (snd f)) as [c|] eqn:E; [|congruence]. exists c. split; [reflexivity|]. eauto.
  - intros X. eapply write_fails; eassumption.
Qed.
Print Assumptions C39_written.

(** The sources read from a folder: the files it contains, alphabetically. *)
Theorem C39_folder : forall T convert decompress H hash_new hash_write hash_finish opt path entries r,
  proper entries ->
  exists files, ordered files /\ (forall p c, In (p, c) files <-> contains opt path entries p c) /\
    (read_directory T convert decompress H hash_new hash_write hash_finish opt path entries r <->
     r = Ok (data_of convert hash_new hash_write hash_finish files)).
Proof.
  intros T convert decompress H hash_new hash_write hash_finish opt path entries r Pr. exists (get_paths opt path entries).
  split; [apply get_paths_ordered|]. split; [now apply get_paths_exact|]. apply read_directory_iff, get_paths_ordered.
Qed.
Print Assumptions C39_folder.

(** So an archive made from a folder gives what the folder gives. *)
Theorem C39_archive_of_folder : forall T convert compress decompress H hash_new hash_write hash_finish opt path entries data arrivals bytes rest r,
  proper entries ->
  (forall p c, contains opt path entries p c -> rust_string (2 ^ 63) p) -> zlen (d_tree data) < 2 ^ 56 ->
  (forall x c, compress x = Some c -> decompress c = Some x /\ zlen c < 2 ^ 63) ->
  read_directory T convert decompress H hash_new hash_write hash_finish opt path entries (Ok data) ->
  Permutation arrivals (map (compressed T compress) (d_tree data)) ->
  write_archive arrivals = Ok bytes ->
  (read_archive T convert decompress H hash_new hash_write hash_finish (bytes ++ rest) r <-> r = Ok data).
Proof.
  intros T convert compress decompress H hash_new hash_write hash_finish opt path entries data arrivals bytes rest r Pr Rs Sm C R P W.
  apply read_directory_iff in R; [|apply get_paths_ordered]. apply Ok_inj in R. subst data. eapply round_trip; [|exact C|exact P|exact W].
  split; [apply get_paths_ordered|]. split; [|unfold data_of, zlen in Sm; cbn [d_tree] in Sm; rewrite map_length in Sm; exact Sm].
  apply Forall_forall. intros [p c] J. apply get_paths_spec in J. exact (Rs _ _ J).
Qed.
Print Assumptions C39_archive_of_folder.

(** a folder with two sources, and one in a subfolder that is left out: the smallest
    compressor, sums as hashes, lengths as converted data *)
Definition e_json5 : list Z := [46; 106; 115; 111; 110; 53].
Definition sample_folder : list (list Z * node) :=
  [(114 :: e_json5, File [123; 125]); ([116], Folder [(120 :: e_json5, File [9])]); (97 :: e_json5, File [123; 32; 125]); ([98], File [1; 2])].
Definition sample_files : smap (list Z) := [([115; 47; 97] ++ e_json5, [123; 32; 125]); ([115; 47; 114] ++ e_json5, [123; 125])].
Definition add (h : Z) (bytes : list Z) : Z := fold_left (fun h b => h * 257 + b + 1) bytes h.
Definition sample_data : data Z :=
  data_of (fun path content => zlen path + zlen content) 0 add (fun h => h) sample_files.
Definition pack (x : list Z) : option (list Z) := Some (7 :: x).
Definition unpack (x : list Z) : option (list Z) := match x with 7 :: x => Some x | _ => None end.
Definition sample_arrivals := rev (map (compressed Z pack) (d_tree sample_data)).

Lemma sample_proper : proper sample_folder.
Proof.
  constructor.
  - repeat (constructor; [cbn; intuition discriminate|]). constructor.
  - intros name n J. repeat (destruct J as [J|J]; [inversion J; subst; split; [discriminate|cbn; intuition discriminate]|]). destruct J.
  - intros name sub J. repeat (destruct J as [J|J]; [try discriminate J|]); [|destruct J]. inversion J; subst. constructor.
    + repeat constructor. intros [].
    + intros name n [K|[]]. inversion K; subst. split; [discriminate|cbn; intuition discriminate].
    + intros name sub [K|[]]. discriminate.
Qed.
Lemma sample_storable : storable sample_files.
Proof.
  split; [repeat constructor; lia|]. split; [|reflexivity]. repeat constructor; try (cbn; lia).
Qed.
Example C39_case :
  proper sample_folder /\ get_paths json_options [115] sample_folder = sample_files /\ storable sample_files /\
  read_directory Z (fun path content => zlen path + zlen content) unpack Z 0 add (fun h => h) json_options [115] sample_folder (Ok sample_data) /\
  (forall x c, pack x = Some c -> unpack c = Some x) /\
  Permutation sample_arrivals (map (compressed Z pack) (d_tree sample_data)) /\
  exists bytes, write_archive sample_arrivals = Ok bytes /\ length bytes = 36%nat /\
    read_archive Z (fun path content => zlen path + zlen content) unpack Z 0 add (fun h => h) bytes (Ok sample_data) /\
    read_archive Z (fun path content => zlen path + zlen content) unpack Z 0 add (fun h => h) (removelast bytes) Err.
Proof.
  split; [exact sample_proper|]. split; [reflexivity|]. split; [exact sample_storable|]. split.
  { apply read_directory_iff; [apply get_paths_ordered|]. reflexivity. }
  split; [intros x c E; inversion E; reflexivity|]. split; [symmetry; apply Permutation_rev|].
  eexists. split; [vm_compute; reflexivity|]. split; [reflexivity|]. split.
  - eapply read_archive_iff; [vm_compute; reflexivity|]. vm_compute. reflexivity.
  - eapply read_archive_iff; [vm_compute; reflexivity|]. vm_compute. reflexivity.
Qed.

(* ------------------------------------------------------------------ *)
(** * C40 *)

(** a hash function that takes its input piece by piece *)
Definition streaming {H} (hash_write : H -> list Z -> H) : Prop := forall h a b, hash_write (hash_write h a) b = hash_write h (a ++ b).

(** Different sources can feed the same data to the hash: paths and contents are
    not separated.  A comment at the end of [a.json5] can hold what [b.json5] adds. *)
Definition with_b : list (list Z * node) := [(97 :: e_json5, File [123; 125; 47; 47]); (98 :: e_json5, File [123; 125])].
Definition without_b : list (list Z * node) := [(97 :: e_json5, File ([123; 125; 47; 47] ++ [115; 47; 98] ++ e_json5 ++ [123; 125]))].
Theorem C40_refuted : exists folder1 folder2, proper folder1 /\ proper folder2 /\
  forall T convert decompress H hash_new hash_write hash_finish, streaming hash_write ->
  exists data1 data2 : data T,
    read_directory T convert decompress H hash_new hash_write hash_finish json_options [115] folder1 (Ok data1) /\
    read_directory T convert decompress H hash_new hash_write hash_finish json_options [115] folder2 (Ok data2) /\
    map fst (d_tree data1) <> map fst (d_tree data2) /\ d_hash data1 = d_hash data2.
Proof.
  exists with_b, without_b. split; [|split].
  - constructor.
    + repeat (constructor; [cbn; intuition discriminate|]). constructor.
    + intros name n J. repeat (destruct J as [J|J]; [inversion J; subst; split; [discriminate|cbn; intuition discriminate]|]). destruct J.
    + intros name sub J. repeat (destruct J as [J|J]; [discriminate J|]). destruct J.
  - constructor.
    + repeat constructor. intros [].
    + intros name n J. repeat (destruct J as [J|J]; [inversion J; subst; split; [discriminate|cbn; intuition discriminate]|]). destruct J.
    + intros name sub J. repeat (destruct J as [J|J]; [discriminate J|]). destruct J.
  - intros T convert decompress H hash_new hash_write hash_finish S. eexists. eexists. split; [apply read_directory_iff; [apply get_paths_ordered|reflexivity]|].
    split; [apply read_directory_iff; [apply get_paths_ordered|reflexivity]|]. split; [vm_compute; discriminate|].
    unfold data_of. cbn [d_hash]. f_equal. change (get_paths json_options [115] with_b) with [([115; 47; 97] ++ e_json5, [123; 125; 47; 47]); ([115; 47; 98] ++ e_json5, [123; 125])].
    change (get_paths json_options [115] without_b) with [([115; 47; 97] ++ e_json5, [123; 125; 47; 47] ++ [115; 47; 98] ++ e_json5 ++ [123; 125])].
    cbn [hash_files]. rewrite !S. reflexivity.
Qed.
Print Assumptions C40_refuted.

(** In general the hash of the sources is the hash of paths and contents in one row. *)
Theorem C40_input : forall H (hash_write : H -> list Z -> H) h files, streaming hash_write -> (forall h, hash_write h [] = h) ->
  hash_files hash_write h files = hash_write h (fed files).
Proof.
  intros H hash_write h files S N. revert h. induction files as [|[p c] l IH]; intros h; cbn [hash_files]; [now rewrite N|].
  rewrite IH, !S. unfold fed. cbn [map concat fst snd]. now rewrite <- app_assoc.
Qed.
Print Assumptions C40_input.

(** What is recognised: sources of another total size; one changed content; a file
    more; and any change that keeps the paths and the size of each file. *)
Definition total_size (files : list (list Z * list Z)) : Z := fold_right (fun f s => zlen (fst f) + zlen (snd f) + s) 0 files.
Lemma fed_size files : zlen (fed files) = total_size files.
Proof.
  induction files as [|[p c] l IH]; [reflexivity|]. cbn [total_size fold_right fst snd]. fold (total_size l). rewrite <- IH. unfold fed, zlen. cbn [map concat fst snd]. rewrite !app_length. lia.
Qed.
Lemma fed_app a b : fed (a ++ b) = fed a ++ fed b.
Proof. unfold fed. now rewrite map_app, concat_app. Qed.
Lemma fed_cons p c l : fed ((p, c) :: l) = p ++ c ++ fed l.
Proof. unfold fed. cbn [map concat fst snd]. now rewrite <- app_assoc. Qed.
Lemma app_split {A} (a b c d : list A) : length a = length b -> a ++ c = b ++ d -> a = b /\ c = d.
Proof. revert b. induction a as [|x a IH]; intros [|y b] L E; try discriminate; [auto|]. cbn [app] in E. inversion E. cbn in L. destruct (IH b) as [-> ->]; auto. Qed.

Theorem C40_partial : forall files1 files2,
  (total_size files1 <> total_size files2 -> fed files1 <> fed files2) /\
  (forall before_ after path content1 content2, files1 = before_ ++ (path, content1) :: after -> files2 = before_ ++ (path, content2) :: after ->
    content1 <> content2 -> fed files1 <> fed files2) /\
  (forall before_ after path content, files1 = before_ ++ after -> files2 = before_ ++ (path, content) :: after -> path <> [] -> fed files1 <> fed files2) /\
  (map fst files1 = map fst files2 -> map (fun f => zlen (snd f)) files1 = map (fun f => zlen (snd f)) files2 -> files1 <> files2 -> fed files1 <> fed files2).
Proof.
  intros files1 files2. split; [|split; [|split]].
  - intros N E. apply N. now rewrite <- !fed_size, E.
  - intros before_ after path content1 content2 -> -> N E. rewrite !fed_app, !fed_cons in E. apply app_inv_head, app_inv_head, app_inv_tail in E. contradiction.
  - intros before_ after path content -> -> N E. rewrite !fed_app, !fed_cons in E. apply app_inv_head in E. apply (f_equal (@length Z)) in E. rewrite !app_length in E.
    destruct path; [congruence|]. cbn [length] in E. lia.
  - intros P. revert files2 P. induction files1 as [|[p c] l IH]; intros [|[q d] m] P L N E; try discriminate; [congruence|]. cbn [map fst snd] in P, L. inversion P as [[P1 P2]]. inversion L as [[L1 L2]].
    subst q. rewrite !fed_cons in E. apply app_inv_head in E. apply app_split in E as [-> E]; [|unfold zlen in L1; lia]. apply (IH m); [exact P2|exact L2|congruence|exact E].
Qed.
Print Assumptions C40_partial.

Example C40_case :
  total_size sample_files = 23 /\
  fed sample_files = [115; 47; 97] ++ e_json5 ++ [123; 32; 125] ++ [115; 47; 114] ++ e_json5 ++ [123; 125] /\
  streaming add /\
  fed (get_paths json_options [115] with_b) = fed (get_paths json_options [115] without_b) /\
  get_paths json_options [115] with_b <> get_paths json_options [115] without_b.
Proof.
  split; [reflexivity|]. split; [reflexivity|]. split; [intros h a b; unfold add; now rewrite fold_left_app|]. split; [reflexivity|]. vm_compute. discriminate.
Qed.

(* ------------------------------------------------------------------ *)
(** * C48 *)

(** The folder [s] reached as [./s] gives data to the hash that the folder reached
    as [s] does not give; with hashes that tell these data apart, the same sources
    are two versions. *)
Theorem C48_refuted : exists folder path1 path2, proper folder /\ path2 = [46; 47] ++ path1 /\
  fed (get_paths json_options path1 folder) <> fed (get_paths json_options path2 folder) /\
  forall T convert decompress H hash_new hash_write hash_finish data1 data2,
    (hash_finish (hash_files (H := H) hash_write hash_new (get_paths json_options path1 folder)) <>
     hash_finish (hash_files hash_write hash_new (get_paths json_options path2 folder))) ->
    read_directory T convert decompress H hash_new hash_write hash_finish json_options path1 folder (Ok data1) ->
    read_directory T convert decompress H hash_new hash_write hash_finish json_options path2 folder (Ok data2) ->
    map (fun f => snd (snd f)) (d_tree data1) = map (fun f => snd (snd f)) (d_tree data2) /\ d_hash data1 <> d_hash data2.
Proof.
  exists sample_folder, [115], [46; 47; 115]. split; [exact sample_proper|]. split; [reflexivity|]. split; [vm_compute; discriminate|].
  intros T convert decompress H hash_new hash_write hash_finish data1 data2 N R1 R2. apply read_directory_iff in R1; [|apply get_paths_ordered]. apply read_directory_iff in R2; [|apply get_paths_ordered].
  apply Ok_inj in R1, R2. subst data1 data2. split; [reflexivity|exact N].
Qed.
Print Assumptions C48_refuted.

(** Reached by the same path, folders with the same files are the same version, in
    whatever order the file system lists them, on whatever schedule. *)
Theorem C48_partial : forall T convert decompress H hash_new hash_write hash_finish opt path entries1 entries2 r1 r2,
  proper entries1 -> proper entries2 ->
  (forall p c, contains opt path entries1 p c <-> contains opt path entries2 p c) ->
  read_directory T convert decompress H hash_new hash_write hash_finish opt path entries1 r1 ->
  read_directory T convert decompress H hash_new hash_write hash_finish opt path entries2 r2 ->
  r1 = r2.
Proof.
  intros T convert decompress H hash_new hash_write hash_finish opt path e1 e2 r1 r2 P1 P2 E R1 R2. apply read_directory_iff in R1; [|apply get_paths_ordered]. apply read_directory_iff in R2; [|apply get_paths_ordered].
  rewrite R1, R2, (get_paths_same opt path e1 e2 P1 P2 E). reflexivity.
Qed.
Print Assumptions C48_partial.

Example C48_case :
  get_paths json_options [115] sample_folder = get_paths json_options [115] (rev sample_folder) /\
  add 0 (fed (get_paths json_options [115] sample_folder)) <> add 0 (fed (get_paths json_options [46; 47; 115] sample_folder)).
Proof. split; [reflexivity|]. vm_compute. discriminate. Qed.
