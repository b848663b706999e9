(** What is loaded is what the source says: the root and the files (C61). *)
From Coq Require Import String.
From Coq Require Import Sorting.Permutation.
From Verif Require Import Base FloatModel FloatProofs StringCompactionModel StringCompactionProofs DocModel DiffSpec DiffProofs DiffEditProofs
  ArchiveModel JsonModel JsonSpec JsonNameProofs JsonProofs LoadSpec LoadProofs SaysSpec SaysProofs SaysProofs2 SaysProofs3.

Section Conversion.
Variable addr : list Z -> Z.
Variable iter : forall A, hmap A -> hmap A.
Hypothesis It : iterates iter.

(* ------------------------------------------------------------------ *)
(** * The root *)

Lemma root_hash_says (l : hmap (Z * rvalue)) : forall acc sab r s, NoDup (map fst l) ->
  (forall k, In k (map fst l) -> hget k acc = None /\ hget k sab = None) ->
  mfold (fun st e => let '(result, sabun) := st in let '(key, (id, value)) := e in
           '(d, v) <- into_root_value value ;
           Ok (hset key (id, d) result, match v with Some v => hset key v sabun | None => sabun end)) l (acc, sab) = Ok (r, s) ->
  forall n, match hget n l with
            | Some (i, v) => exists w o, into_root_value v = Ok (w, o) /\ hget n r = Some (i, w) /\ hget n s = o
            | None => hget n r = hget n acc /\ hget n s = hget n sab
            end.
Proof.
  induction l as [|[k [i v]] l IH]; intros acc sab r s N H E n; cbn [mfold] in E.
  - apply Ok_inj, pair_equal_spec in E as [<- <-]. cbn. auto.
  - apply bind_ok in E as ([acc' sab'] & E1 & E2). apply bind_ok in E1 as ([d o] & E1 & E3). apply Ok_inj, pair_equal_spec in E3 as [<- <-].
    cbn [map fst] in N. inversion N as [|? ? Nk N']; subst.
    assert (H' : forall x, In x (map fst l) -> hget x (hset k (i, d) acc) = None /\ hget x (match o with Some v0 => hset k v0 sab | None => sab end) = None).
    { intros x Ix. assert (X : x <> k) by (intros ->; contradiction). destruct (H x (or_intror Ix)) as [A B]. split; [rewrite hget_hset_other by exact X; exact A|].
      destruct o; [rewrite hget_hset_other by exact X|]; exact B. }
    specialize (IH _ _ _ _ N' H' E2 n). cbn [hget]. destruct (eqb_bytes k n) eqn:X.
    + apply eqb_bytes_eq in X as ->. rewrite (proj2 (hget_none n l) Nk) in IH. destruct IH as [A B]. exists d, o. split; [exact E1|]. rewrite A, B. split; [apply hget_hset_same|].
      destruct o; [apply hget_hset_same|]. apply (H n). left; reflexivity.
    + assert (Y : n <> k) by (intros ->; rewrite eqb_bytes_refl in X; discriminate X). destruct (hget n l) as [[i' v']|]; [exact IH|]. destruct IH as [A B]. rewrite A, B.
      split; [apply hget_hset_other, Y|]. destruct o; [apply hget_hset_other, Y|reflexivity].
Qed.

Lemma new_root_fields d s o r : new_root iter d s o = Ok r -> ro_default r = d /\ ro_sabun r = s /\ ro_old r = o.
Proof. unfold new_root. intros E. apply bind_ok in E as (T & _ & E). apply Ok_inj in E as <-. auto. Qed.
Lemma new_root_ok d s o : well_numbered_root d -> exists r, new_root iter d s o = Ok r.
Proof. intros W. unfold new_root. destruct (meta_of_ok addr iter It d W) as (T & -> & _). cbn. eauto. Qed.

Theorem root_says m r : tidy (JMap m) -> json_root_to_rust addr iter (JMap m) = Ok r -> says_root m r.
Proof.
  intros T E. unfold json_root_to_rust in E. apply bind_ok in E as (o & Eo & E).
  pose proof (proj1 (proj2 (convert_says addr iter It (jdepth (JMap m)))) m o) as S. destruct S as (K & I & O & Rf & N & Nr & M1 & M2); [cbn; fold (dm m); lia|exact T|exact Eo|].
  unfold into_root_obj in E. destruct (_ || _) eqn:X; [discriminate E|]. apply orb_false_iff in X as [X1 X2].
  apply bind_ok in E as ([d s] & Eh & E). pose proof (new_root_fields _ _ _ _ E) as (E1 & E2 & E3).
  unfold to_root_hash in Eh. pose proof (root_hash_says _ [] [] _ _ (iter_nodup _ It _ N) (fun k _ => conj eq_refl eq_refl) Eh) as H.
  assert (Hg : forall n, hget n (iter _ (to_default o)) = hget n (to_default o)) by (intros n; apply hget_perm; [apply It|apply (iter_nodup _ It), N]).
  split; [exact K|]. split; [intros v W; destruct (proj1 I v W) as (i & Ei & _); rewrite Ei in X1; discriminate X1|]. split; [rewrite E3; exact O|].
  split; [destruct (tr_map (to_refs o)); [|discriminate X2]; eauto|]. rewrite E1, E2. split; [|split].
  - intros n vt v V. destruct (M1 _ _ _ V) as (i & r' & G & S). specialize (H n). rewrite Hg, G in H. destruct H as (w & o' & A & B & C). exists i, w, o'. split; [exact B|]. split; [exact C|].
    exists r'. split; [exact S|]. apply root_value_in, A.
  - intros n x G. specialize (H n). rewrite Hg in H. destruct (hget n (to_default o)) as [[i v]|] eqn:Y; [eapply M2, Y|]. destruct H as [H _]. rewrite H in G. discriminate G.
  - intros n x G. specialize (H n). rewrite Hg in H. destruct (hget n (to_default o)) as [[i v]|] eqn:Y; [eapply M2, Y|]. destruct H as [_ H]. rewrite H in G. discriminate G.
Qed.

Lemma root_hash_ok (l : hmap (Z * rvalue)) : (forall k i v, In (k, (i, v)) l -> exists x, into_root_value v = Ok x) -> forall st,
  exists st', mfold (fun st e => let '(result, sabun) := st in let '(key, (id, value)) := e in
           '(d, v) <- into_root_value value ;
           Ok (hset key (id, d) result, match v with Some v => hset key v sabun | None => sabun end)) l st = Ok st'.
Proof.
  induction l as [|[k [i v]] l IH]; intros H [acc sab]; cbn [mfold]; [eauto|]. destruct (H k i v (or_introl eq_refl)) as ([d o] & ->). cbn [bind]. apply IH. intros; eapply H; right; eassumption.
Qed.

Lemma root_sensible m : known_keys m -> no_word m SID -> (exists old, says_old m old) -> (exists enum old, says_refs m [] enum old) ->
  (forall n vt v, member m n vt v -> exists w s, says_member vt v w s) -> sensible means m.
Proof.
  intros K Ni O (en & old & Rf) M. split; [exact K|]. split; [exists None; split; [intros v W; exfalso; eapply Ni, W|reflexivity]|]. split; [exact O|]. split; [eauto|].
  intros n vt v V. destruct (M _ _ _ V) as (w & s & r & S & _). exists r. exact S.
Qed.

Theorem root_ok m : tidy (JMap m) -> known_keys m -> no_word m SID -> (exists old, says_old m old) -> (exists enum old, says_refs m [] enum old) ->
  (forall n vt v, member m n vt v -> exists w s, says_member vt v w s) -> exists r, json_root_to_rust addr iter (JMap m) = Ok r.
Proof.
  intros T K Ni O Rf M. pose proof (root_sensible m K Ni O Rf M) as Sn. destruct (everywhere_node _ _ T) as (T1 & T2 & _).
  destruct (proj1 (proj2 (convert_ok addr iter It (jdepth (JMap m)))) m) as (o & Eo); [cbn; fold (dm m); lia|exact T|exact Sn|].
  pose proof (proj1 (proj2 (convert_says addr iter It (jdepth (JMap m)))) m o) as S. destruct S as (_ & I & _ & Rf' & N & _ & M1 & M2); [cbn; fold (dm m); lia|exact T|exact Eo|].
  pose proof (proj2 (convert_wf addr iter It (jdepth (JMap m))) m false) as G. rewrite Eo in G. cbn [good] in G. destruct G as (_ & Hv & _); [cbn; fold (dm m); lia|].
  destruct (obj_members_in_order addr iter _ _ _ Eo T2) as [Kn Nn].
  unfold json_root_to_rust. rewrite Eo. cbn [bind]. unfold into_root_obj. destruct Rf as (en & old & Rf). rewrite (proj2 I Ni), (says_refs_nil _ _ _ _ _ _ Rf Rf'). cbn [is_some is_nil negb orb].
  unfold to_root_hash. destruct (root_hash_ok (iter _ (to_default o))) with (st := (@nil (name * (Z * rootvalue)), @nil (name * rootsab mutlist))) as ([d s] & Eh).
  { intros k i v Iv. apply (iter_in _ It) in Iv. apply in_hget in Iv; [|exact N]. destruct (M2 _ _ Iv) as (vt & w & V). destruct (M1 _ _ _ V) as (i' & r & G & Rr). rewrite Iv in G. injection G as <- <-.
    destruct (M _ _ _ V) as (w' & s & r & Sr & Ir). eapply kind_root; [|exact Ir]. transitivity (vkind w); [apply (says_kind _ _ _ Sr)|symmetry; apply (says_kind _ _ _ Rr)]. }
  change (mfold _ _ _) with (to_root_hash iter (to_default o)) in Eh |- *. rewrite Eh. cbn [bind].
  destruct (to_root_hash_ok addr iter It _ _ _ N Hv Eh) as (P & Nd & Wd & Ls). apply new_root_ok. split; [apply Nd, Nn|]. intros key id v Iv. pose proof (Wd _ _ _ Iv). destruct v; assumption.
Qed.

(* ------------------------------------------------------------------ *)
(** * The files *)

Lemma construct_says (l : list (name * (rootvalue * option (rootsab mutlist)))) : forall d s, NoDup (map fst l) ->
  (forall k, In k (map fst l) -> hget k d = None /\ hget k s = None) ->
  let '(d', s') := fold_left (fun st e => let '(default, sabun) := st in let '(nm, (value, sab)) := e in
                 (hset nm (zlen default, value) default,
                  match sab with Some sab => hset nm sab sabun | None => sabun end)) l (d, s) in
  forall n, match hget n l with
            | Some (v, o) => exists i, hget n d' = Some (i, v) /\ hget n s' = o
            | None => hget n d' = hget n d /\ hget n s' = hget n s
            end.
Proof.
  induction l as [|[k [v o]] l IH]; intros d s N H; cbn [fold_left]; [cbn; auto|].
  cbn [map fst] in N. inversion N as [|? ? Nk N']; subst.
  specialize (IH (hset k (zlen d, v) d) (match o with Some x => hset k x s | None => s end) N').
  destruct (fold_left _ l _) as [d' s'].
  assert (H' : forall x, In x (map fst l) -> hget x (hset k (zlen d, v) d) = None /\ hget x (match o with Some v0 => hset k v0 s | None => s end) = None).
  { intros x Ix. assert (X : x <> k) by (intros ->; contradiction). destruct (H x (or_intror Ix)) as [A B]. split; [rewrite hget_hset_other by exact X; exact A|].
    destruct o; [rewrite hget_hset_other by exact X|]; exact B. }
  specialize (IH H'). intros n. specialize (IH n). cbn [hget]. destruct (eqb_bytes k n) eqn:X.
  - apply eqb_bytes_eq in X as ->. rewrite (proj2 (hget_none n l) Nk) in IH. destruct IH as [A B]. exists (zlen d). rewrite A, B. split; [apply hget_hset_same|].
    destruct o; [apply hget_hset_same|]. apply (H n). left; reflexivity.
  - assert (Y : n <> k) by (intros ->; rewrite eqb_bytes_refl in X; discriminate X). destruct (hget n l) as [[v' o']|]; [exact IH|]. destruct IH as [A B]. rewrite A, B.
    split; [apply hget_hset_other, Y|]. destruct o; [apply hget_hset_other, Y|reflexivity].
Qed.

Lemma construct_root_says r vec r' : construct_root iter r vec = Ok r' -> NoDup (map fst (ro_default r) ++ map fst vec) ->
  (forall k x, hget k (ro_sabun r) = Some x -> In k (map fst (ro_default r))) ->
  ro_old r' = ro_old r /\
  forall n, match hget n vec with
            | Some (v, o) => exists i, hget n (ro_default r') = Some (i, v) /\ hget n (ro_sabun r') = o
            | None => hget n (ro_default r') = hget n (ro_default r) /\ hget n (ro_sabun r') = hget n (ro_sabun r)
            end.
Proof.
  intros E N Ls. unfold construct_root in E. pose proof (construct_says (sort_by_name vec) (ro_default r) (ro_sabun r)) as F.
  destruct (fold_left _ (sort_by_name vec) _) as [d s]. pose proof (new_root_fields _ _ _ _ E) as (-> & -> & ->). split; [reflexivity|].
  pose proof (sort_perm vec) as P. pose proof (nodup_app_r _ _ N) as Nv.
  assert (Ns : NoDup (map fst (sort_by_name vec))) by (eapply Permutation_NoDup; [apply Permutation_map, Permutation_sym, P|exact Nv]).
  intros n. rewrite <- (hget_perm n _ _ P Ns). apply F; [exact Ns|].
  intros k Ik. assert (X : ~ In k (map fst (ro_default r))).
  { intros Y. eapply Permutation_in in Ik; [|apply Permutation_map, P]. clear -N Ik Y. induction (ro_default r) as [|e l IH]; [destruct Y|]. cbn [map app] in N. inversion N as [|? ? Ne N']; subst.
    destruct Y as [<-|Y]; [apply Ne, in_or_app; auto|auto]. }
  split; [apply hget_none, X|]. destruct (hget k (ro_sabun r)) as [x|] eqn:G; [|reflexivity]. exfalso. eapply X, Ls, G.
Qed.

Variable parse : list Z -> option jval.
Notation file f := (json_file_to_rust addr iter parse (fst f) (snd f)).
(** a file that is a member *)
Notation is_member := (fun f e => file f = Ok (AItem (fst e) (fst (snd e)) (snd (snd e)))).

Lemma take_root_parts l r rest : take_root l = Some (r, rest) -> exists pre post, l = pre ++ Ok (ARoot r) :: post /\ rest = pre ++ post.
Proof.
  revert r rest. induction l as [|x l IH]; intros r rest E; cbn in E; [discriminate E|].
  assert (Go : (match take_root l with Some (r, others) => Some (r, x :: others) | None => None end) = Some (r, rest) -> exists pre post, x :: l = pre ++ Ok (ARoot r) :: post /\ rest = pre ++ post).
  { destruct (take_root l) as [[r' others]|] eqn:Et; [|discriminate]. intros H; injection H as -> <-. destruct (IH _ _ eq_refl) as (pre & post & -> & ->). exists (x :: pre), post. auto. }
  destruct x as [[r0|nm v s]| |]; auto. injection E as -> <-. exists [], l. auto.
Qed.
Lemma other_items_parts l vec : other_items l = Ok vec -> Forall2 (fun x e => x = Ok (AItem (fst e) (fst (snd e)) (snd (snd e)))) l vec.
Proof.
  intros E. apply mmap_forall2 in E. eapply forall2_impl_in; [exact E|]. cbn. intros x e _ _ H. destruct x as [[r|nm v s]| |]; try discriminate H. apply Ok_inj in H as <-. reflexivity.
Qed.
Lemma map_split {A B} (f : A -> B) l a b c : map f l = a ++ b :: c -> exists l1 x l2, l = l1 ++ x :: l2 /\ map f l1 = a /\ f x = b /\ map f l2 = c.
Proof.
  revert a. induction l as [|y l IH]; intros a E; [destruct a; discriminate E|]. destruct a as [|z a]; cbn in E.
  - injection E as <- <-. exists [], y, l. auto.
  - injection E as <- E. destruct (IH _ E) as (l1 & x & l2 & -> & <- & <- & <-). exists (y :: l1), x, l2. auto.
Qed.
Lemma forall2_map {A B C} (f : A -> B) (R : B -> C -> Prop) l r : Forall2 R (map f l) r -> Forall2 (fun a c => R (f a) c) l r.
Proof. revert r. induction l as [|a l IH]; intros r F; inversion F; subst; constructor; auto. Qed.

Lemma files_parts files r : files_to_root addr iter parse files = Ok r ->
  exists pre f post r0 vec, files = pre ++ f :: post /\ file f = Ok (ARoot r0) /\ Forall2 is_member (pre ++ post) vec /\ construct_root iter r0 vec = Ok r.
Proof.
  unfold files_to_root. intros E. destruct (existsb is_panic _); [discriminate E|]. destruct (existsb _ _); [discriminate E|].
  apply bind_ok in E as ([r0 others] & Et & E). destruct (take_root _) as [[r1 o1]|] eqn:Tr; [|discriminate Et]. cbn in Et. apply Ok_inj, pair_equal_spec in Et as [-> ->].
  apply bind_ok in E as (vec & Ev & E). apply take_root_parts in Tr as (a & b & Em & ->). apply other_items_parts in Ev.
  apply map_split in Em as (pre & f & post & -> & <- & Ef & <-). exists pre, f, post, r0, vec. split; [reflexivity|]. split; [exact Ef|]. split; [|exact E].
  rewrite <- map_app in Ev. apply forall2_map in Ev. exact Ev.
Qed.
Lemma files_from_parts pre f post r0 vec : file f = Ok (ARoot r0) -> Forall2 is_member (pre ++ post) vec ->
  files_to_root addr iter parse (pre ++ f :: post) = construct_root iter r0 vec.
Proof.
  intros Ef F. unfold files_to_root. rewrite map_app. cbn [map]. rewrite Ef.
  assert (Ok1 : forall x, In x (pre ++ post) -> exists nm v s, file x = Ok (AItem nm v s)).
  { clear -F. induction F as [|x e l vec H F IH]; [intros x []|]. intros y [<-|I]; eauto. }
  assert (X : forall g : res archiving_item -> bool, g (Ok (ARoot r0)) = false -> (forall nm v s, g (Ok (AItem nm v s)) = false) ->
    existsb g (map (fun f => file f) pre ++ Ok (ARoot r0) :: map (fun f => file f) post) = false).
  { intros g G1 G2. apply not_true_is_false. intros H. apply existsb_exists in H as (x & Ix & Gx). apply in_app_or in Ix as [Ix|[<-|Ix]]; [|congruence|].
    - apply in_map_iff in Ix as (y & <- & Iy). destruct (Ok1 y) as (nm & v & s & E); [apply in_or_app; auto|]. rewrite E, G2 in Gx. discriminate Gx.
    - apply in_map_iff in Ix as (y & <- & Iy). destruct (Ok1 y) as (nm & v & s & E); [apply in_or_app; auto|]. rewrite E, G2 in Gx. discriminate Gx. }
  rewrite (X is_panic) by reflexivity. rewrite (X (fun x => negb (is_ok x))) by reflexivity.
  assert (Tr : forall pre, (forall x, In x pre -> exists nm v s, file x = Ok (AItem nm v s)) ->
     take_root (map (fun f => file f) pre ++ Ok (ARoot r0) :: map (fun f => file f) post) = Some (r0, map (fun f => file f) (pre ++ post))).
  { clear. induction pre as [|y pre IH]; intros H; [reflexivity|]. destruct (H y (or_introl eq_refl)) as (nm & v & s & E). cbn [map app take_root]. rewrite E, IH; [reflexivity|].
    intros; apply H; right; assumption. }
  rewrite Tr by (intros; apply Ok1, in_or_app; auto). cbn [ok_or bind].
  replace (other_items (map (fun f => file f) (pre ++ post))) with (@Ok (list (name * (rootvalue * option (rootsab mutlist)))) vec); [reflexivity|].
  clear -F. unfold other_items. induction F as [|x e l vec H F IH]; [reflexivity|]. cbn [map mmap]. rewrite H. cbn [bind]. rewrite <- IH. destruct e as [nm [v s]]. reflexivity.
Qed.

(** one file *)
Lemma member_file f nm w s : file f = Ok (AItem nm w s) -> exists vt v, file_stem (fst f) <> txt "root" /\ json_name (file_stem (fst f)) = Some (NName nm vt) /\
  parse (snd f) = Some v /\ exists r, json_item_str_to_rust addr iter v vt = Ok r /\ into_root_value r = Ok (w, s).
Proof.
  unfold json_file_to_rust. destruct (eqb_bytes (file_stem (fst f)) (txt "root")) eqn:X; intros E.
  - apply bind_ok in E as (v & _ & E). apply bind_ok in E as (r & _ & E). discriminate E.
  - destruct (json_name (file_stem (fst f))) as [[n vt|]|]; try discriminate E. apply bind_ok in E as (v & Ep & E). destruct (parse (snd f)) as [v0|]; [|discriminate Ep]. apply Ok_inj in Ep as ->.
    apply bind_ok in E as (r & Er & E). apply bind_ok in E as ([w' s'] & Ew & E). apply Ok_inj in E. injection E as -> -> ->.
    exists vt, v. split; [intros Y; rewrite Y, eqb_bytes_refl in X; discriminate X|]. eauto 8.
Qed.
Lemma root_file f r : file f = Ok (ARoot r) -> file_stem (fst f) = txt "root" /\ exists m, parse (snd f) = Some (JMap m) /\ json_root_to_rust addr iter (JMap m) = Ok r.
Proof.
  unfold json_file_to_rust. destruct (eqb_bytes (file_stem (fst f)) (txt "root")) eqn:X; intros E.
  - split; [apply eqb_bytes_eq in X; exact X|]. apply bind_ok in E as (v & Ep & E). destruct (parse (snd f)) as [v0|]; [|discriminate Ep]. apply Ok_inj in Ep as ->.
    apply bind_ok in E as (r' & Er & E). apply Ok_inj in E. injection E as ->. destruct v; try discriminate Er. eauto.
  - destruct (json_name (file_stem (fst f))) as [[n vt|]|]; try discriminate E. apply bind_ok in E as (v & _ & E). apply bind_ok in E as (r' & _ & E). apply bind_ok in E as ([w s] & _ & E). discriminate E.
Qed.

Lemma forall2_in_l {A B} (R : A -> B -> Prop) l r a : Forall2 R l r -> In a l -> exists b, In b r /\ R a b.
Proof. induction 1 as [|x y l r H F IH]; [intros []|]. intros [->|I]; [exists y; cbn; auto|]. destruct (IH I) as (b & Ib & Hb). exists b. cbn; auto. Qed.
Lemma forall2_in_r {A B} (R : A -> B -> Prop) l r b : Forall2 R l r -> In b r -> exists a, In a l /\ R a b.
Proof. induction 1 as [|x y l r H F IH]; [intros []|]. intros [->|I]; [exists x; cbn; auto|]. destruct (IH I) as (a & Ia & Ha). exists a. cbn; auto. Qed.

Lemma file_member_iff files n vt v : file_member parse files n vt v <->
  exists f, In f files /\ file_stem (fst f) <> txt "root" /\ json_name (file_stem (fst f)) = Some (NName n vt) /\ parse (snd f) = Some v.
Proof.
  split.
  - intros (path & content & t & I & P & M & Es & Nr & Ep). exists (path, content). cbn [fst snd]. split; [exact I|]. split; [exact Nr|]. split; [|exact Ep]. apply json_name_plain. eauto.
  - intros ([path content] & I & Nr & J & Ep). cbn [fst snd] in *. apply json_name_plain in J as (P & t & M & Es). exists path, content, t. auto 10.
Qed.

Lemma names_split pre f post : Permutation (source_names parse (pre ++ f :: post)) (names_of_file parse f ++ source_names parse (pre ++ post)).
Proof.
  unfold source_names. rewrite !flat_map_app. cbn [flat_map]. rewrite !app_assoc. apply Permutation_app_tail, Permutation_app_comm.
Qed.
Lemma member_names_vec l vec : Forall2 is_member l vec -> source_names parse l = map fst vec.
Proof.
  induction 1 as [|f e l vec H F IH]; [reflexivity|]. unfold source_names in *. cbn [flat_map map]. rewrite IH. apply member_file in H as (vt & v & Nr & J & _).
  unfold names_of_file, is_root. destruct (list_eq_dec _ _ _) as [X|_]; [contradiction|]. rewrite J. reflexivity.
Qed.

Theorem files_say files r : NoDup (map fst files) -> NoDup (source_names parse files) -> all_files tidy parse files ->
  files_to_root addr iter parse files = Ok r -> says_files parse files r.
Proof.
  intros Np Ns T E. pose proof (files_wf addr iter It parse files Ns) as Wf. apply files_parts in E as (pre & f & post & r0 & vec & -> & Ef & F & E).
  destruct (root_file _ _ Ef) as (Es & m & Ep & Er).
  assert (If : In f (pre ++ f :: post)) by (apply in_or_app; right; left; reflexivity).
  assert (Io : forall x, In x (pre ++ post) -> In x (pre ++ f :: post)) by (intros x I; apply in_app_or in I as [I|I]; apply in_or_app; cbn; auto).
  assert (Oi : forall x, In x (pre ++ f :: post) -> x = f \/ In x (pre ++ post)) by (intros x I; apply in_app_or in I as [I|[I|I]]; auto; right; apply in_or_app; auto).
  assert (Nf : forall x, In x (pre ++ post) -> fst x <> fst f).
  { intros x I Y. rewrite map_app in Np. cbn [map] in Np. apply NoDup_remove_2 in Np. apply Np. rewrite <- map_app, <- Y. apply in_map, I. }
  assert (Tm : tidy (JMap m)) by (destruct f as [p c]; eapply T; [exact If|exact Ep]).
  destruct (root_says m r0 Tm Er) as (K & Ni & O & Rf & M1 & M2 & M3).
  (* the names *)
  assert (Nn : names_of_file parse f = member_names m).
  { unfold names_of_file, is_root. destruct (list_eq_dec _ _ _) as [_|X]; [|contradiction]. rewrite Ep. reflexivity. }
  assert (Nall : NoDup (member_names m ++ map fst vec)).
  { eapply Permutation_NoDup in Ns; [|apply names_split]. rewrite Nn, (member_names_vec _ _ F) in Ns. exact Ns. }
  pose proof (json_root_wf addr iter It m (nodup_app_l _ _ Nall)) as Wr. rewrite Er in Wr. cbn [good] in Wr. destruct Wr as [(_ & _ & Ls) Pr].
  assert (Nd : NoDup (map fst (ro_default r0) ++ map fst vec)) by (eapply Permutation_NoDup; [apply Permutation_app_tail, Permutation_sym, Pr|exact Nall]).
  assert (Lk : forall k x, hget k (ro_sabun r0) = Some x -> In k (map fst (ro_default r0))).
  { intros k x G. apply hget_in in G. destruct (Ls _ _ G) as (i & v & I & _). apply (in_map fst) in I. exact I. }
  destruct (construct_root_says _ _ _ E Nd Lk) as (Eo & H).
  assert (Dis : forall n, In n (member_names m) -> hget n vec = None).
  { intros n I. apply hget_none. intros J. clear -Nall I J. induction (member_names m) as [|x l IH]; [destruct I|]. cbn [app] in Nall. inversion Nall as [|? ? Nx N']; subst.
    destruct I as [->|I]; [apply Nx, in_or_app; auto|auto]. }
  assert (Vec : forall n e, hget n vec = Some e -> exists f vt v, In f (pre ++ post) /\ file_stem (fst f) <> txt "root" /\ json_name (file_stem (fst f)) = Some (NName n vt) /\ parse (snd f) = Some v /\
     exists r, json_item_str_to_rust addr iter v vt = Ok r /\ into_root_value r = Ok e).
  { intros n e G. apply hget_in in G. eapply forall2_in_r in G as (x & Ix & Hx); [|exact F]. cbn [fst snd] in Hx. apply member_file in Hx as (vt & v & A & B & C & rr & D1 & D2). destruct e. eauto 12. }
  destruct f as [path content]. cbn [fst snd] in *. exists path, content, m. split; [exact If|]. split; [exact Es|]. split; [exact Ep|]. split; [|split].
  - intros path' content' I X. apply Oi in I as [I|I]; [apply pair_equal_spec in I as [-> _]; reflexivity|]. exfalso.
    eapply forall2_in_l in I as (e & _ & He); [|exact F]. apply member_file in He as (vt & v & A & _). contradiction.
  - intros path' content' I X. pose proof I as I0. apply Oi in I as [I|I]; [apply pair_equal_spec in I as [-> _]; congruence|].
    eapply forall2_in_l in I as (e & _ & He); [|exact F]. apply member_file in He as (vt & v & A & B & C & _). cbn [fst snd] in *. exists (fst e), vt, v. split; [exact C|]. split.
    + apply file_member_iff. exists (path', content'). auto.
    + apply json_name_plain in B as (_ & t & Mt & B). eauto.
  - split; [exact K|]. split; [exact Ni|]. split; [rewrite Eo; exact O|]. split; [exact Rf|]. split; [|split].
    + intros n vt v [V|V].
      * specialize (H n). rewrite (Dis n (member_names_in _ _ _ _ V)) in H. destruct H as [A B]. rewrite A, B. apply (M1 n vt v V).
      * apply file_member_iff in V as (x & Ix & A & B & C). assert (Ix' : In x (pre ++ post)) by (apply Oi in Ix as [->|Ix]; [contradiction|exact Ix]).
        eapply forall2_in_l in Ix' as (e & Ie & He); [|exact F]. apply member_file in He as (vt' & v' & _ & B' & C' & rr & D1 & D2). rewrite B in B'. injection B' as Bn Bv. subst vt'. rewrite C in C'. injection C' as <-.
        specialize (H n). replace (hget n vec) with (Some (snd e)) in H; [|symmetry; apply in_hget; [exact (nodup_app_r _ _ Nd)|destruct e as [a b]; cbn [fst snd] in *; rewrite Bn; exact Ie]].
        destruct (snd e) as [w s]. destruct H as (i & H1 & H2). exists i, w, s. split; [exact H1|]. split; [exact H2|]. exists rr. split; [|apply root_value_in; exact D2].
        eapply item_str_says; [exact It| |exact D1]. destruct x as [p c]. eapply T; [exact Ix|exact C].
    + intros n x G. specialize (H n). destruct (hget n vec) as [e|] eqn:Ge.
      * destruct (Vec _ _ Ge) as (y & vt & v & Iy & A & B & C & _). exists vt, v. right. apply file_member_iff. exists y. auto.
      * destruct H as [H _]. rewrite H in G. destruct (M2 _ _ G) as (vt & v & V). exists vt, v. auto.
    + intros n x G. specialize (H n). destruct (hget n vec) as [e|] eqn:Ge.
      * destruct (Vec _ _ Ge) as (y & vt & v & Iy & A & B & C & _). exists vt, v. right. apply file_member_iff. exists y. auto.
      * destruct H as [_ H]. rewrite H in G. destruct (M3 _ _ G) as (vt & v & V). exists vt, v. auto.
Qed.

Theorem files_load files r : NoDup (map fst files) -> NoDup (source_names parse files) -> all_files tidy parse files ->
  says_files parse files r -> exists r', files_to_root addr iter parse files = Ok r'.
Proof.
  intros Np Ns T (path & content & m & If & Es & Ep & Uq & Ot & K & Ni & O & Rf & M1 & _ & _).
  assert (Tm : tidy (JMap m)) by (eapply T; [exact If|exact Ep]).
  destruct (root_ok m Tm K Ni (ex_intro _ _ O) Rf) as (r0 & Er).
  { intros n vt v V. destruct (M1 n vt v (or_introl V)) as (i & w & s & _ & _ & S). eauto. }
  apply in_split in If as (pre & post & ->). set (f := (path, content)) in *.
  assert (Ef : file f = Ok (ARoot r0)).
  { unfold f, json_file_to_rust. cbn [fst snd]. rewrite Es, eqb_bytes_refl, Ep. cbn [ok_or bind]. rewrite Er. reflexivity. }
  assert (Io : forall x, In x (pre ++ post) -> In x (pre ++ f :: post)) by (intros x I; apply in_app_or in I as [I|I]; apply in_or_app; cbn; auto).
  assert (Nf : forall x, In x (pre ++ post) -> fst x <> path).
  { intros x I Y. rewrite map_app in Np. cbn [map] in Np. apply NoDup_remove_2 in Np. apply Np. change (fst f) with path. rewrite <- map_app, <- Y. apply in_map, I. }
  assert (Mem : forall x, In x (pre ++ post) -> exists e, file x = Ok (AItem (fst e) (fst (snd e)) (snd (snd e)))).
  { intros [p c] I. assert (Xp : p <> path) by (apply (Nf _ I)). destruct (Ot p c (Io _ I) Xp) as (n & vt & v & Pc & Fm & t & Mt & St).
    destruct (M1 n vt v (or_intror Fm)) as (i & w & s & _ & _ & rr & Sr & Ir).
    assert (Tv : tidy v) by (eapply T; [apply Io, I|exact Pc]).
    destruct (item_str_ok addr iter It v vt Tv) as (r1 & E1); [exists rr; exact Sr|].
    pose proof (item_str_says addr iter It v vt r1 Tv E1) as S1.
    destruct (kind_root rr r1 w s) as ([w' s'] & E2); [transitivity (vkind v); [apply (says_kind _ _ _ Sr)|symmetry; apply (says_kind _ _ _ S1)]|exact Ir|].
    exists (n, (w', s')). unfold json_file_to_rust. cbn [fst snd].
    assert (Nr : file_stem p <> txt "root") by (intros Y; apply Xp, (Uq p c); [apply Io, I|exact Y]).
    rewrite (eqb_bytes_neq _ _ Nr). replace (json_name (file_stem p)) with (Some (NName n vt)).
    2:{ symmetry. apply json_name_plain. apply file_member_iff in Fm as (? & _ & _ & J & _). apply json_name_plain in J as (Pn & _). eauto. }
    rewrite Pc. cbn [ok_or bind]. rewrite E1. cbn [bind]. rewrite E2. reflexivity. }
  assert (Vec : exists vec, Forall2 is_member (pre ++ post) vec).
  { clear -Mem. induction (pre ++ post) as [|x l IH]; [exists []; constructor|]. destruct (Mem x (or_introl eq_refl)) as (e & E). destruct IH as (vec & F); [intros; apply Mem; right; assumption|]. exists (e :: vec). constructor; assumption. }
  destruct Vec as (vec & F). pose proof (files_wf addr iter It parse _ Ns) as Wf. rewrite (files_from_parts pre f post r0 vec Ef F) in *.
  (* numbers are fine *)
  assert (Nn : names_of_file parse f = member_names m).
  { unfold names_of_file, is_root, f. cbn [fst snd]. destruct (list_eq_dec _ _ _) as [_|X]; [|contradiction]. rewrite Ep. reflexivity. }
  assert (Nall : NoDup (member_names m ++ map fst vec)).
  { eapply Permutation_NoDup in Ns; [|apply names_split]. rewrite Nn, (member_names_vec _ _ F) in Ns. exact Ns. }
  pose proof (json_root_wf addr iter It m (nodup_app_l _ _ Nall)) as Wr. rewrite Er in Wr. cbn [good] in Wr. destruct Wr as [(W0 & _ & Ls) Pr].
  assert (Nd : NoDup (map fst (ro_default r0) ++ map fst vec)) by (eapply Permutation_NoDup; [apply Permutation_app_tail, Permutation_sym, Pr|exact Nall]).
  unfold construct_root. pose proof (construct_fold_wf (sort_by_name vec) (ro_default r0) (ro_sabun r0)) as C.
  destruct (fold_left _ (sort_by_name vec) _) as [d s]. apply new_root_ok. apply C.
  - eapply Permutation_NoDup; [|exact Nd]. apply Permutation_app_head, Permutation_map, Permutation_sym, sort_perm.
  - exact W0.
  - exact Ls.
  - intros k v o I. eapply Permutation_in in I; [|apply sort_perm]. eapply forall2_in_r in I as (x & Ix & Hx); [|exact F]. cbn [fst snd] in Hx. apply member_file in Hx as (vt & v' & _ & _ & _ & rr & D1 & D2).
    pose proof (item_str_wf addr iter It v' vt) as G. rewrite D1 in G. cbn [good] in G. pose proof (into_root_value_wf rr G) as G'. rewrite D2 in G'. exact G'.
Qed.
End Conversion.
