(** Ordered maps, writing and reading archives, the files of a folder. *)
From Coq Require Import Sorting.Sorted Sorting.Permutation.
From Verif Require Import Base CompactionModel CompactionSpec CompactionProofs FloatProofs DiffWireProofs ArchiveModel ArchiveSpec ArchiveProofs.

(** ** The order *)

Lemma bytes_lt_iff a b : bytes_lt a b = true <-> before a b.
Proof.
  revert b. induction a as [|x a IH]; intros [|y b]; cbn [bytes_lt].
  - split; [discriminate|inversion 1].
  - split; [constructor|reflexivity].
  - split; [discriminate|inversion 1].
  - rewrite Bool.orb_true_iff, Bool.andb_true_iff, Z.ltb_lt, Z.eqb_eq, IH. split.
    + intros [L|[-> B]]; [now apply before_here|now apply before_there].
    + intros B. inversion B; subst; auto.
Qed.
Lemma before_irrefl a : ~ before a a.
Proof. induction a as [|x a IH]; intros B; inversion B; subst; [lia|auto]. Qed.
Lemma before_trans a b c : before a b -> before b c -> before a c.
Proof.
  intros B. revert c. induction B as [x b|x y a b L|x a b B IH]; intros c C; inversion C; subst; try (constructor; fail).
  - apply before_here. lia.
  - now apply before_here.
  - now apply before_here.
  - apply before_there. auto.
Qed.
Lemma before_total a b : a <> b -> before a b \/ before b a.
Proof.
  revert b. induction a as [|x a IH]; intros [|y b] N; [congruence|left; constructor|right; constructor|].
  destruct (Z.lt_trichotomy x y) as [L|[->|L]]; [left; now apply before_here| |right; now apply before_here].
  destruct (IH b) as [B|B]; [congruence|left; now apply before_there|right; now apply before_there].
Qed.

(** ** Maps *)

Section Maps.
Context {A : Type}.
Implicit Types m : smap A.

Lemma insert_in k v m x a : In (x, a) (sm_insert k v m) -> (x, a) = (k, v) \/ In (x, a) m.
Proof.
  induction m as [|[y b] m IH]; cbn [sm_insert]; [intros [E|[]]; auto|]. destruct (bytes_lt k y); [intros [E|E]; auto|]. destruct (bytes_lt y k).
  - intros [E|E]; [right; now left|]. destruct (IH E); [auto|right; now right].
  - intros [E|E]; [auto|right; now right].
Qed.
Lemma insert_new k v m : In (k, v) (sm_insert k v m).
Proof. induction m as [|[y b] m IH]; cbn [sm_insert]; [now left|]. destruct (bytes_lt k y); [now left|]. destruct (bytes_lt y k); [now right|now left]. Qed.
Lemma eq_of_neither k y : bytes_lt k y = false -> bytes_lt y k = false -> k = y.
Proof. intros B C. destruct (list_eq_dec Z.eq_dec k y) as [E|N]; [exact E|]. destruct (before_total _ _ N) as [L|L]; apply bytes_lt_iff in L; congruence. Qed.
Lemma insert_keys k v m x : In x (map fst (sm_insert k v m)) <-> x = k \/ In x (map fst m).
Proof.
  induction m as [|[y b] m IH]; cbn [sm_insert map fst In]; [intuition|]. destruct (bytes_lt k y) eqn:B; cbn [map fst In]; [intuition|]. destruct (bytes_lt y k) eqn:C; cbn [map fst In].
  - rewrite IH. intuition.
  - rewrite (eq_of_neither _ _ B C). intuition.
Qed.
Lemma insert_ordered k v m : ordered m -> ordered (sm_insert k v m).
Proof.
  unfold ordered. induction m as [|[y b] m IH]; intros O; cbn [sm_insert map fst]; [repeat constructor|]. cbn [map fst] in O. inversion O as [|y' l O' F]; subst.
  destruct (bytes_lt k y) eqn:B; cbn [map fst].
  - apply bytes_lt_iff in B. constructor; [exact O|]. constructor; [exact B|]. eapply Forall_impl; [|exact F]. intros x L. eapply before_trans; eassumption.
  - destruct (bytes_lt y k) eqn:C; cbn [map fst].
    + constructor; [auto|]. apply Forall_forall. intros x J. apply insert_keys in J as [->|J]; [now apply bytes_lt_iff|]. rewrite Forall_forall in F. auto.
    + rewrite (eq_of_neither _ _ B C). now constructor.
Qed.
Lemma insert_absent k v m : ~ In k (map fst m) -> Permutation (sm_insert k v m) ((k, v) :: m).
Proof.
  induction m as [|[y b] m IH]; intros N; cbn [sm_insert]; [reflexivity|]. destruct (bytes_lt k y) eqn:B; [reflexivity|]. destruct (bytes_lt y k) eqn:C.
  - rewrite IH; [apply perm_swap|]. intros J. apply N. now right.
  - exfalso. apply N. left. symmetry. now apply eq_of_neither.
Qed.
Lemma insert_last k v m : Forall (fun x => before x k) (map fst m) -> sm_insert k v m = m ++ [(k, v)].
Proof.
  induction m as [|[y b] m IH]; intros F; cbn [sm_insert app]; [reflexivity|]. cbn [map fst] in F. inversion F as [|y' l B F']; subst.
  assert (bytes_lt k y = false) as ->. { destruct (bytes_lt k y) eqn:C; [|reflexivity]. apply bytes_lt_iff in C. destruct (before_irrefl k). eapply before_trans; eassumption. }
  apply bytes_lt_iff in B. rewrite B. f_equal. auto.
Qed.

Lemma ordered_nodup m : ordered m -> NoDup (map fst m).
Proof.
  unfold ordered. induction (map fst m) as [|k l IH]; intros O; [constructor|]. inversion O as [|k' l' O' F]; subst. constructor; [|auto].
  intros J. rewrite Forall_forall in F. exact (before_irrefl _ (F _ J)).
Qed.
Lemma ordered_key m k a b : ordered m -> In (k, a) m -> In (k, b) m -> a = b.
Proof.
  intros O. apply ordered_nodup in O. induction m as [|[y c] m IH]; [contradiction|]. cbn [map fst] in O. inversion O as [|y' l N O']; subst. intros [E|E] [F|F].
  - congruence.
  - inversion E; subst. destruct N. change k with (fst (k, b)). now apply in_map.
  - inversion F; subst. destruct N. change k with (fst (k, a)). now apply in_map.
  - auto.
Qed.
Lemma ordered_equal m1 m2 : ordered m1 -> ordered m2 -> (forall x, In x m1 <-> In x m2) -> m1 = m2.
Proof.
  unfold ordered. revert m2. induction m1 as [|[k a] m1 IH]; intros [|[l b] m2] O1 O2 E.
  - reflexivity.
  - destruct (proj2 (E (l, b))). now left.
  - destruct (proj1 (E (k, a))). now left.
  - cbn [map fst] in O1, O2. inversion O1 as [|k' l' S1 F1]; subst. inversion O2 as [|k' l' S2 F2]; subst.
    assert (B1 : forall x, In x m1 -> before k (fst x)) by (intros x J; rewrite Forall_forall in F1; apply F1; now apply in_map).
    assert (B2 : forall x, In x m2 -> before l (fst x)) by (intros x J; rewrite Forall_forall in F2; apply F2; now apply in_map).
    assert (Ek : (k, a) = (l, b)).
    { destruct (proj1 (E (k, a)) (or_introl eq_refl)) as [X|X]; [congruence|]. destruct (proj2 (E (l, b)) (or_introl eq_refl)) as [Y|Y]; [congruence|].
      apply B2 in X. apply B1 in Y. cbn [fst] in X, Y. destruct (before_irrefl k). eapply before_trans; eassumption. }
    inversion Ek; subst l b. f_equal. apply IH; [assumption|assumption|]. intros x. split; intros J.
    + destruct (proj1 (E x) (or_intror J)) as [<-|K]; [|exact K]. destruct (before_irrefl k). exact (B1 _ J).
    + destruct (proj2 (E x) (or_intror J)) as [<-|K]; [|exact K]. destruct (before_irrefl k). exact (B2 _ J).
Qed.
End Maps.

Lemma fold_ordered {A B} (g : list Z * A -> B) (l pre : smap A) : ordered (pre ++ l) ->
  fold_left (fun m f => sm_insert (fst f) (g f) m) l (map (fun f => (fst f, g f)) pre) = map (fun f => (fst f, g f)) (pre ++ l).
Proof.
  revert pre. induction l as [|[k a] l IH]; intros pre O; cbn [fold_left fst]; [now rewrite app_nil_r|].
  rewrite insert_last.
  - assert (E : map (fun f => (fst f, g f)) pre ++ [(k, g (k, a))] = map (fun f => (fst f, g f)) (pre ++ [(k, a)])) by (rewrite map_app; reflexivity).
    rewrite E, IH by (now rewrite <- app_assoc). now rewrite <- app_assoc.
  - rewrite map_map. unfold ordered in O. rewrite map_app in O. cbn [map fst] in O. clear IH. induction pre as [|[y b] pre IH]; cbn [map fst]; [constructor|].
    cbn [map fst app] in O. inversion O as [|y' l' O' F]; subst. constructor; [|auto]. rewrite Forall_forall in F. apply F, in_or_app. right. now left.
Qed.

Lemma forall2_length {A B} (R : A -> B -> Prop) l m : Forall2 R l m -> length l = length m.
Proof. induction 1; cbn; congruence. Qed.

Section Wire.
Context {T H : Type}.
Variable convert : list Z -> list Z -> T.
Variable compress : list Z -> option (list Z).
Variable decompress : list Z -> option (list Z).
Variable hash_new : H.
Variable hash_write : H -> list Z -> H.
Variable hash_finish : H -> Z.
Notation data_of := (data_of convert hash_new hash_write hash_finish).
Notation read_archive := (read_archive T convert decompress H hash_new hash_write hash_finish).
Notation read_directory := (read_directory T convert decompress H hash_new hash_write hash_finish).
Notation compressed := (compressed T compress).

Lemma as_map_ordered files : ordered files -> as_map convert files = d_tree (data_of files).
Proof. intros O. unfold as_map. cbn [ArchiveSpec.data_of d_tree]. exact (fold_ordered (fun f => (convert (fst f) (snd f), snd f)) files [] O). Qed.

(** ** Writing *)

Lemma collect_ok arr items : Forall (fun a => snd a <> None) arr -> NoDup (map fst arr ++ map fst items) -> ordered items ->
  exists m, collect arr items = Ok m /\ ordered m /\ (forall p c, In (p, c) m <-> In (p, Some c) arr \/ In (p, c) items).
Proof.
  revert items. induction arr as [|[p [c|]] arr IH]; intros items F N O.
  - exists items. repeat split; [exact O|auto|intros [[]|J]; exact J].
  - inversion F as [|x l _ F']; subst. cbn [collect]. cbn [map fst app] in N. inversion N as [|x l N1 N2]; subst.
    assert (Np : ~ In p (map fst items)) by (intros J; apply N1, in_or_app; now right).
    destruct (IH (sm_insert p c items)) as (m & E & Om & M); [exact F'| |now apply insert_ordered|].
    { assert (P : Permutation (map fst (sm_insert p c items)) (p :: map fst items)). { exact (Permutation_map fst (insert_absent p c items Np)). }
      eapply Permutation_NoDup; [apply Permutation_app_head; symmetry; exact P|]. eapply Permutation_NoDup; [apply Permutation_middle|]. now constructor. }
    exists m. split; [exact E|]. split; [exact Om|]. intros q d. rewrite M. split.
    + intros [J|J]; [left; now right|]. apply insert_in in J as [J|J]; [inversion J; left; now left|now right].
    + intros [[J|J]|J]; [inversion J; subst; right; apply insert_new|now left|].
      right. apply (Permutation_in _ (Permutation_sym (insert_absent p c items Np))). now right.
  - inversion F as [|x l F1 _]; subst. destruct F1. reflexivity.
Qed.
Lemma collect_fails arr items : Exists (fun a => snd a = None) arr -> collect arr items = Err.
Proof.
  revert items. induction arr as [|[p [c|]] arr IH]; intros items X; [inversion X| |reflexivity]. cbn [collect]. apply IH. inversion X as [x l Y|x l Y]; [discriminate Y|exact Y].
Qed.

Lemma collect_permutation files arr : ordered files -> Permutation arr (map compressed (d_tree (data_of files))) ->
  Forall (fun f => compress (snd f) <> None) files ->
  exists items, collect arr [] = Ok items /\ Forall2 (fun f i => fst i = fst f /\ compress (snd f) = Some (snd i)) files items.
Proof.
  intros O P F. assert (Em : map compressed (d_tree (data_of files)) = map (fun f => (fst f, compress (snd f))) files).
  { cbn [ArchiveSpec.data_of d_tree]. rewrite map_map. reflexivity. }
  rewrite Em in P. clear Em.
  assert (Ek : Permutation (map fst arr) (map fst files)). { apply (Permutation_map fst) in P. rewrite map_map in P. exact P. }
  destruct (collect_ok arr []) as (m & E & Om & M).
  { eapply Permutation_Forall; [symmetry; exact P|]. rewrite Forall_map. exact F. }
  { cbn [map]. rewrite app_nil_r. eapply Permutation_NoDup; [symmetry; exact Ek|]. now apply ordered_nodup. }
  { constructor. }
  set (items := map (fun f => (fst f, known (compress (snd f)))) files). assert (m = items) as ->.
  { apply ordered_equal; [exact Om| |].
    - unfold ordered, items. rewrite map_map. exact O.
    - intros [p c]. rewrite M. cbn [In]. split; [intros [J|[]]|intros J; left].
      + apply (Permutation_in _ P) in J. apply in_map_iff in J as (f & Ef & J). apply in_map_iff. exists f. split; [|exact J]. inversion Ef as [[E1 E2]]. now rewrite E2.
      + apply in_map_iff in J as (f & Ef & J). apply (Permutation_in _ (Permutation_sym P)), in_map_iff. exists f. split; [|exact J].
        rewrite Forall_forall in F. specialize (F _ J). inversion Ef as [[E1 E2]]. destruct (compress (snd f)); [reflexivity|congruence]. }
  exists items. split; [exact E|]. unfold items. clear -F. induction files as [|f l IH]; cbn [map]; [constructor|]. inversion F as [|x l' F1 F2]; subst. constructor; [|auto].
  cbn [fst snd]. split; [reflexivity|]. destruct (compress (snd f)); [reflexivity|congruence].
Qed.

Definition head_kvals (items : smap (list Z)) : list kval := flat_map (fun e => [comp_str (fst e); comp_int (zlen (snd e))]) items.
Lemma read_heads_back items rest : read_heads (head_kvals items ++ rest) (length items) = Ok (map (fun e => (fst e, zlen (snd e))) items).
Proof.
  induction items as [|[p c] l IH]; [reflexivity|]. cbn [head_kvals flat_map fst snd app length read_heads map]. rewrite comp_str_lossless, comp_int_as_i64. fold (head_kvals l). rewrite IH. reflexivity.
Qed.
Lemma head_kvals_length items : zlen (head_kvals items) = 2 * zlen items.
Proof. unfold zlen. induction items as [|[p c] l IH]; [reflexivity|]. cbn [head_kvals flat_map app length] in *. fold (head_kvals l). lia. Qed.
Lemma head_kvals_plain items : map plain (head_kvals items) = head_kvals items.
Proof. induction items as [|[p c] l IH]; [reflexivity|]. cbn [head_kvals flat_map app map fst snd]. rewrite plain_comp_str, plain_comp_int. fold (head_kvals l). now rewrite IH. Qed.
Lemma head_kvals_wf items : Forall (fun e => rust_string (2 ^ 63) (fst e) /\ zlen (snd e) < 2 ^ 63) items -> Forall wf_kval (head_kvals items).
Proof.
  induction items as [|[p c] l IH]; intros F; cbn [head_kvals flat_map app fst snd]; [constructor|]. inversion F as [|x l' [F1 F2] F3]; subst.
  constructor; [now apply comp_str_wf|]. constructor; [|now apply IH]. apply comp_int_wf. cbn [snd] in F2. unfold i64_range, zlen in *. lia.
Qed.

Lemma write_items_back items rest : Forall (fun e => rust_string (2 ^ 63) (fst e) /\ zlen (snd e) < 2 ^ 63) items -> zlen items < 2 ^ 56 ->
  exists bytes, write_items items = Ok bytes /\ read_header (bytes ++ rest) = Ok (map (fun e => (fst e, zlen (snd e))) items, concat (map snd items) ++ rest).
Proof.
  intros F L. assert (W : wf_kvals (comp_int (zlen items) :: head_kvals items)).
  { split.
    - constructor; [|now apply head_kvals_wf]. apply comp_int_wf. unfold i64_range, zlen in *. lia.
    - pose proof (head_kvals_length items) as Hl. unfold zlen in *. cbn [length]. lia. }
  destruct (encode_decode _ (concat (map snd items) ++ rest) W) as (h & E & _ & D). exists (h ++ concat (map snd items)). split.
  - unfold write_items. unfold head_kvals in E. rewrite E. reflexivity.
  - unfold read_header. rewrite <- app_assoc, D. cbn [bind map]. rewrite plain_comp_int, head_kvals_plain, comp_int_as_i64.
    assert ((zlen items <? 0) || (zlen (head_kvals items) <? zlen items) = false) as ->.
    { rewrite head_kvals_length. apply Bool.orb_false_iff. split; apply Z.ltb_ge; unfold zlen; lia. }
    pose proof (read_heads_back items []) as R. rewrite app_nil_r in R. unfold zlen at 1. rewrite Nat2Z.id, R. reflexivity.
Qed.

Lemma firstn_exact {A} (a b : list A) : firstn (length a) (a ++ b) = a.
Proof. rewrite firstn_app, Nat.sub_diag, firstn_all. apply app_nil_r. Qed.
Lemma skipn_exact {A} (a b : list A) : skipn (length a) (a ++ b) = b.
Proof. rewrite skipn_app, Nat.sub_diag, skipn_all. reflexivity. Qed.

Lemma read_files_back files items rest : (forall x c, compress x = Some c -> decompress c = Some x) ->
  Forall2 (fun f i => fst i = fst f /\ compress (snd f) = Some (snd i)) files items ->
  read_files decompress (map (fun e => (fst e, zlen (snd e))) items) (concat (map snd items) ++ rest) = Some files.
Proof.
  intros C F. induction F as [|[p v] [q c] fs is [E1 E2] F IH]; [reflexivity|]. cbn [fst snd] in E1, E2. subst q. cbn [map read_files concat fst snd].
  assert ((0 <=? zlen c) && (zlen c <=? zlen ((c ++ concat (map snd is)) ++ rest)) = true) as ->.
  { apply andb_true_intro. split; apply Z.leb_le; unfold zlen; [lia|]. rewrite !app_length. lia. }
  rewrite <- app_assoc. unfold zlen. rewrite Nat2Z.id, firstn_exact, skipn_exact, (C _ _ E2). fold (map (fun e : list Z * list Z => (fst e, zlen (snd e))) is). unfold zlen in IH. rewrite IH. reflexivity.
Qed.

Lemma read_archive_iff input heads rest r : read_header input = Ok (heads, rest) ->
  (read_archive input r <-> r = read_result convert hash_new hash_write hash_finish decompress heads rest).
Proof.
  intros E. split.
  - intros R. inversion R as [r0 E0 N|heads' rest' n s r0 E0 Rn Es]; subst.
    + destruct (N _ E).
    + rewrite E in E0. inversion E0; subst. eapply reading_result; eassumption.
  - intros ->. destruct (reading_returns convert decompress hash_new hash_write hash_finish heads rest) as (k & s & R & Er). eapply read_returns; eassumption.
Qed.

Lemma read_archive_total input : exists r, forall r', read_archive input r' <-> r' = r.
Proof.
  destruct (read_header input) as [[heads rest]| |] eqn:E.
  - exists (read_result convert hash_new hash_write hash_finish decompress heads rest). intros r'. now apply read_archive_iff.
  - exists Err. intros r'. split.
    + intros R. inversion R as [r0 E0 N|heads' rest' n s r0 E0 Rn Es]; subst; [now rewrite E|congruence].
    + intros ->. change (@Err (data T)) with (match @Err (list (list Z * Z) * list Z) with Panic => @Panic (data T) | _ => Err end). apply read_header_fails; [exact E|discriminate].
  - exists Panic. intros r'. split.
    + intros R. inversion R as [r0 E0 N|heads' rest' n s r0 E0 Rn Es]; subst; [now rewrite E|congruence].
    + intros ->. change (@Panic (data T)) with (match @Panic (list (list Z * Z) * list Z) with Panic => @Panic (data T) | _ => Err end). apply read_header_fails; [exact E|discriminate].
Qed.

Lemma write_succeeds files arr : storable files -> Permutation arr (map compressed (d_tree (data_of files))) ->
  Forall (fun f => exists c, compress (snd f) = Some c /\ zlen c < 2 ^ 63) files ->
  exists items bytes, Forall2 (fun f i => fst i = fst f /\ compress (snd f) = Some (snd i)) files items /\
    write_archive arr = Ok bytes /\ forall rest, read_header (bytes ++ rest) = Ok (map (fun e => (fst e, zlen (snd e))) items, concat (map snd items) ++ rest).
Proof.
  intros (O & Rs & L) P F. destruct (collect_permutation files arr O P) as (items & E & F2).
  { eapply Forall_impl; [|exact F]. intros f (c & Ec & _). congruence. }
  assert (Fi : Forall (fun e => rust_string (2 ^ 63) (fst e) /\ zlen (snd e) < 2 ^ 63) items).
  { clear -F2 Rs F. induction F2 as [|f i fs is [E1 E2] F2 IH]; [constructor|]. inversion Rs as [|x1 l1 R1 R2]; subst. inversion F as [|x2 l2 (c & Ec & Lc) F3]; subst. constructor; [|auto]. rewrite E1. split; [assumption|]. replace (snd i) with c by congruence. exact Lc. }
  assert (Li : zlen items < 2 ^ 56) by (unfold zlen in *; rewrite <- (forall2_length _ _ _ F2); exact L).
  exists items. destruct (write_items_back items [] Fi Li) as (bytes & Ew & _). exists bytes. split; [exact F2|]. split; [unfold write_archive; rewrite E; exact Ew|].
  intros rest. destruct (write_items_back items rest Fi Li) as (bytes' & Ew' & R). congruence.
Qed.

Lemma write_fails files arr : Permutation arr (map compressed (d_tree (data_of files))) -> Exists (fun f => compress (snd f) = None) files -> write_archive arr = Err.
Proof.
  intros P X. unfold write_archive. rewrite collect_fails; [reflexivity|]. apply Exists_exists in X as (f & J & E). apply Exists_exists. exists (fst f, None). split; [|reflexivity].
  apply (Permutation_in _ (Permutation_sym P)). cbn [ArchiveSpec.data_of d_tree]. rewrite map_map. apply in_map_iff. exists f. split; [|exact J]. unfold ArchiveModel.compressed. cbn [fst snd]. now rewrite E.
Qed.

Lemma round_trip files arr bytes rest r : storable files ->
  (forall x c, compress x = Some c -> decompress c = Some x /\ zlen c < 2 ^ 63) ->
  Permutation arr (map compressed (d_tree (data_of files))) -> write_archive arr = Ok bytes ->
  (read_archive (bytes ++ rest) r <-> r = Ok (data_of files)).
Proof.
  intros St C P W.
  assert (F : Forall (fun f => exists c, compress (snd f) = Some c /\ zlen c < 2 ^ 63) files).
  { apply Forall_forall. intros f J. destruct (compress (snd f)) as [c|] eqn:E; [exists c; split; [reflexivity|]; now apply (C (snd f))|].
    rewrite (write_fails files arr P) in W; [discriminate|]. apply Exists_exists. eauto. }
  destruct (write_succeeds files arr St P F) as (items & bytes' & F2 & W' & R). assert (bytes' = bytes) by congruence. subst bytes'.
  rewrite (read_archive_iff _ _ _ _ (R rest)). unfold read_result. rewrite (read_files_back files items rest) by (intros; try (now apply C); exact F2).
  destruct St as (O & _). rewrite (as_map_ordered _ O). reflexivity.
Qed.

(** ** The files of a folder *)

Lemma read_directory_iff opt path entries r : ordered (get_paths opt path entries) ->
  (read_directory opt path entries r <-> r = Ok (data_of (get_paths opt path entries))).
Proof.
  intros O. assert (E : Ok (data_of (get_paths opt path entries)) = Ok (Data (as_map convert (get_paths opt path entries)) (hash_finish (hash_files hash_write hash_new (get_paths opt path entries))))).
  { rewrite (as_map_ordered _ O). reflexivity. }
  rewrite E. split.
  - intros R. inversion R as [n s r0 Rn Es]; subst. eapply archiving_result; eassumption.
  - intros ->. destruct (archiving_returns convert decompress hash_new hash_write hash_finish (get_paths opt path entries)) as (k & s & R & Er). econstructor; eassumption.
Qed.
End Wire.

Section Node.
Variable P : node -> Prop.
Hypothesis Pf : forall c, P (File c).
Hypothesis Pd : forall entries, Forall (fun e => P (snd e)) entries -> P (Folder entries).
Fixpoint node_induction (n : node) : P n :=
  match n with
  | File c => Pf c
  | Folder entries => Pd entries ((fix go l : Forall (fun e => P (snd e)) l :=
      match l with [] => Forall_nil _ | e :: r => Forall_cons e (node_induction (snd e)) (go r) end) entries)
  end.
End Node.

Section Paths.
Variable opt : archive_options.

Lemma visit_ordered n : forall path name set, ordered set -> ordered (visit opt path name n set).
Proof.
  induction n as [c|entries IH] using node_induction; intros path name set O; cbn [visit].
  - destruct (is_archived _ _); [now apply insert_ordered|exact O].
  - destruct (o_subfolders opt); [|exact O]. revert set O. induction IH as [|e l E F IHl]; intros set O; cbn [fold_left]; [exact O|]. apply IHl. now apply E.
Qed.
Lemma get_paths_ordered path entries : ordered (get_paths opt path entries).
Proof.
  unfold get_paths. assert (O : ordered (@nil (list Z * list Z))) by constructor. revert O. generalize (@nil (list Z * list Z)). induction entries as [|e l IH]; intros set O; cbn [fold_left]; [exact O|]. apply IH. now apply visit_ordered.
Qed.

Lemma contains_weaken path l1 l2 p c : (forall x, In x l1 -> In x l2) -> contains opt path l1 p c -> contains opt path l2 p c.
Proof. intros S C. inversion C as [? ? name content J A|? ? name sub p' content J A C']; subst; [now apply contains_file; [apply S|]|eapply contains_below; [apply S; eassumption|assumption|assumption]]. Qed.
Lemma contains_app path l1 l2 p c : contains opt path (l1 ++ l2) p c -> contains opt path l1 p c \/ contains opt path l2 p c.
Proof.
  intros C. inversion C as [? ? name content J A|? ? name sub p' content J A C']; subst; apply in_app_or in J as [J|J];
    [left; now apply contains_file|right; now apply contains_file|left; eapply contains_below; eassumption|right; eapply contains_below; eassumption].
Qed.

Lemma fold_visit_spec (l : list (list Z * node)) path :
  Forall (fun e => forall path name set,
    (forall p c, In (p, c) (visit opt path name (snd e) set) -> In (p, c) set \/ contains opt path [(name, snd e)] p c) /\
    (forall p, In p (map fst set) -> In p (map fst (visit opt path name (snd e) set))) /\
    (forall p c, contains opt path [(name, snd e)] p c -> In p (map fst (visit opt path name (snd e) set)))) l ->
  forall set, let set' := fold_left (fun set e => visit opt path (fst e) (snd e) set) l set in
    (forall p c, In (p, c) set' -> In (p, c) set \/ contains opt path l p c) /\
    (forall p, In p (map fst set) -> In p (map fst set')) /\
    (forall p c, contains opt path l p c -> In p (map fst set')).
Proof.
  induction 1 as [|[name n] l E F IH]; intros set; cbn [fold_left fst snd].
  - repeat split; auto. intros p c C. inversion C as [? ? name content J A|? ? name sub p' content J A C']; destruct J.
  - destruct (E path name set) as (E1 & E2 & E3). cbn [snd] in E1, E2, E3. destruct (IH (visit opt path name n set)) as (I1 & I2 & I3). repeat split.
    + intros p c J. destruct (I1 _ _ J) as [K|K]; [|right; eapply contains_weaken; [|exact K]; intros x X; now right].
      destruct (E1 _ _ K) as [L|L]; [now left|right]. eapply contains_weaken; [|exact L]. intros x [X|[]]. now left.
    + intros p J. apply I2, E2, J.
    + intros p c C. change ((name, n) :: l) with ([(name, n)] ++ l) in C. apply contains_app in C as [C|C]; [apply I2; now apply (E3 p c)|now apply (I3 p c)].
Qed.

Lemma visit_spec n : forall path name set,
  (forall p c, In (p, c) (visit opt path name n set) -> In (p, c) set \/ contains opt path [(name, n)] p c) /\
  (forall p, In p (map fst set) -> In p (map fst (visit opt path name n set))) /\
  (forall p c, contains opt path [(name, n)] p c -> In p (map fst (visit opt path name n set))).
Proof.
  induction n as [content|entries IH] using node_induction; intros path name set; cbn [visit].
  - destruct (is_archived opt (extension name)) eqn:A; repeat split.
    + intros p c J. apply insert_in in J as [J|J]; [|now left]. inversion J; subst. right. apply contains_file; [now left|exact A].
    + intros p J. apply insert_keys. now right.
    + intros p c C. inversion C as [? ? name' content' J A'|? ? name' sub p' content' J A' C']; subst; destruct J as [J|[]]; inversion J; subst. apply insert_keys. now left.
    + auto.
    + auto.
    + intros p c C. inversion C as [? ? name' content' J A'|? ? name' sub p' content' J A' C']; subst; destruct J as [J|[]]; inversion J; subst. congruence.
  - destruct (o_subfolders opt) eqn:O; [|repeat split; auto; intros p c C; inversion C as [? ? name' content' J A'|? ? name' sub p' content' J A' C']; subst; destruct J as [J|[]]; inversion J; subst; congruence].
    destruct (fold_visit_spec entries (join path name) IH set) as (I1 & I2 & I3). repeat split; [|exact I2|].
    + intros p c J. destruct (I1 _ _ J) as [K|K]; [now left|right]. eapply contains_below; [now left|exact O|exact K].
    + intros p c C. inversion C as [? ? name' content' J A'|? ? name' sub p' content' J A' C']; subst; destruct J as [J|[]]; inversion J; subst. now apply (I3 p c).
Qed.

Lemma get_paths_spec path entries :
  (forall p c, In (p, c) (get_paths opt path entries) -> contains opt path entries p c) /\
  (forall p c, contains opt path entries p c -> In p (map fst (get_paths opt path entries))).
Proof.
  destruct (fold_visit_spec entries path) with (set := @nil (list Z * list Z)) as (I1 & _ & I3).
  { apply Forall_forall. intros e _. apply visit_spec. }
  split; [|exact I3]. intros p c J. destruct (I1 _ _ J) as [[]|K]. exact K.
Qed.

(** ** Paths are unique *)

Definition stem (path : list Z) : list Z := match path with [] => [] | _ => if last path 0 =? 47 then path else path ++ [47] end.
Lemma join_stem path name : join path name = stem path ++ name.
Proof. unfold join, stem. destruct path as [|x l]; [reflexivity|]. destruct (_ =? _); [reflexivity|]. now rewrite <- app_assoc. Qed.
Lemma stem_join path name : name <> [] -> ~ In 47 name -> stem (join path name) = stem path ++ name ++ [47].
Proof.
  intros N S. rewrite join_stem. unfold stem at 1. assert (L : last (stem path ++ name) 0 <> 47).
  { destruct (exists_last N) as (l & x & ->). rewrite app_assoc, last_last. intros ->. apply S, in_or_app. right. now left. }
  destruct (stem path ++ name) as [|y l] eqn:E; [apply app_eq_nil in E as [_ E]; contradiction|]. rewrite <- E in *. apply Z.eqb_neq in L. rewrite L. now rewrite app_assoc.
Qed.
Lemma contains_stem path entries p c : proper entries -> contains opt path entries p c ->
  exists name n tail, In (name, n) entries /\ p = stem path ++ name ++ tail /\
    match n with File content => tail = [] /\ c = content | Folder sub => (exists t, tail = 47 :: t) /\ contains opt (join path name) sub p c end.
Proof.
  intros Pr C. inversion Pr as [e Nd Nm Ps]; subst e. revert Pr Nd Nm Ps. induction C as [path entries name content J A|path entries name sub p content J A C IH]; intros Pr Nd Nm Ps.
  - exists name, (File content), []. split; [exact J|]. split; [now rewrite join_stem, app_nil_r|auto].
  - pose proof (Ps _ _ J) as Psub. inversion Psub as [e Nd' Nm' Ps']; subst e. destruct (IH Psub Nd' Nm' Ps') as (name' & n' & tail & J' & E & _). destruct (Nm _ _ J) as [N1 N2].
    exists name, (Folder sub), (47 :: name' ++ tail). split; [exact J|]. split; [|split; [eauto|exact C]]. rewrite E, (stem_join _ _ N1 N2), <- !app_assoc. reflexivity.
Qed.
Lemma same_name (a b s t : list Z) : ~ In 47 a -> ~ In 47 b -> (s = [] \/ exists u, s = 47 :: u) -> (t = [] \/ exists u, t = 47 :: u) -> a ++ s = b ++ t -> a = b /\ s = t.
Proof.
  intros Na Nb Hs Ht. revert b Nb. induction a as [|x a IH]; intros [|y b] Nb E; cbn [app] in E.
  - auto.
  - exfalso. subst s. destruct Hs as [Hs|[u Hs]]; [discriminate|]. inversion Hs; subst. apply Nb. now left.
  - exfalso. subst t. destruct Ht as [Ht|[u Ht]]; [discriminate|]. inversion Ht; subst. apply Na. now left.
  - inversion E; subst. destruct (IH ltac:(intros J; apply Na; now right) b) as [-> ->]; [intros J; apply Nb; now right|assumption|auto].
Qed.
Lemma nodup_key {A} (l : list (list Z * A)) k a b : NoDup (map fst l) -> In (k, a) l -> In (k, b) l -> a = b.
Proof.
  induction l as [|[y c] l IH]; intros N; [contradiction|]. cbn [map fst] in N. inversion N as [|y' l' N1 N2]; subst. intros [E|E] [F|F].
  - congruence.
  - inversion E; subst. destruct N1. change k with (fst (k, b)). now apply in_map.
  - inversion F; subst. destruct N1. change k with (fst (k, a)). now apply in_map.
  - auto.
Qed.
Lemma contains_unique path entries p c c' : proper entries -> contains opt path entries p c -> contains opt path entries p c' -> c = c'.
Proof.
  intros Pr. revert path p c c'. induction Pr as [entries Nd Nm Ps IH]. intros path p c c' C C'. assert (Pr : proper entries) by (constructor; assumption).
  destruct (contains_stem _ _ _ _ Pr C) as (n1 & x1 & t1 & J1 & E1 & X1). destruct (contains_stem _ _ _ _ Pr C') as (n2 & x2 & t2 & J2 & E2 & X2).
  rewrite E1 in E2. apply app_inv_head in E2. destruct (same_name n1 n2 t1 t2) as [-> ->]; [apply (Nm _ _ J1)|apply (Nm _ _ J2)| | |exact E2|].
  { destruct x1; [left; tauto|right; tauto]. }
  { destruct x2; [left; tauto|right; tauto]. }
  assert (x1 = x2) as -> by (eapply nodup_key; eassumption). destruct x2 as [content|sub].
  - destruct X1, X2. congruence.
  - destruct X1 as [_ X1], X2 as [_ X2]. exact (IH _ _ J1 _ _ _ _ X1 X2).
Qed.

Lemma get_paths_exact path entries : proper entries -> forall p c, In (p, c) (get_paths opt path entries) <-> contains opt path entries p c.
Proof.
  intros Pr p c. destruct (get_paths_spec path entries) as [S1 S2]. split; [apply S1|]. intros C. pose proof (S2 _ _ C) as J. apply in_map_iff in J as ([q d] & E & J). cbn [fst] in E. subst q.
  rewrite (contains_unique path entries p c d Pr C (S1 _ _ J)). exact J.
Qed.
Lemma get_paths_same path e1 e2 : proper e1 -> proper e2 -> (forall p c, contains opt path e1 p c <-> contains opt path e2 p c) -> get_paths opt path e1 = get_paths opt path e2.
Proof.
  intros P1 P2 E. apply ordered_equal; [apply get_paths_ordered|apply get_paths_ordered|]. intros [p c]. rewrite !get_paths_exact by assumption. apply E.
Qed.
End Paths.
