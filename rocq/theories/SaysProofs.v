(** What is loaded is what the source says: parameters, names and objects (C61). *)
From Coq Require Import String.
From Coq Require Import Sorting.Permutation.
From Verif Require Import Base FloatModel FloatProofs StringCompactionModel StringCompactionProofs DocModel DiffSpec DiffProofs DiffEditProofs
  ArchiveModel JsonModel JsonSpec JsonNameProofs JsonProofs LoadSpec LoadProofs SaysSpec.

(* ------------------------------------------------------------------ *)
(** * Keys *)

Lemma member_iff m n vt v : member m n vt v <-> exists key, In (key, v) m /\ json_name key = Some (NName n vt).
Proof.
  split.
  - intros (key & t & I & P & M & ->). exists (n ++ t). split; [exact I|]. apply json_name_plain. eauto.
  - intros (key & I & J). apply json_name_plain in J as (P & t & M & ->). exists (n ++ t), t. auto.
Qed.
Lemma word_iff m s v : word m s v <-> exists key, In (key, v) m /\ json_name key = Some (NSystem s).
Proof.
  unfold word. split.
  - intros I. exists (system_word s). split; [exact I|]. apply json_name_system. reflexivity.
  - intros (key & I & J). apply json_name_system in J as ->. exact I.
Qed.
Lemma known_iff m : known_keys m <-> forall key v, In (key, v) m -> json_name key <> None.
Proof.
  unfold known_keys. split; intros H key v I.
  - apply H in I as [(n & vt & t & P & M & ->)|(s & ->)].
    + rewrite (proj2 (json_name_plain (n ++ t) n vt)); [discriminate|]. eauto.
    + rewrite (proj2 (json_name_system _ s) eq_refl). discriminate.
  - apply H in I. destruct (json_name key) as [[n vt|s]|] eqn:J; [| |congruence].
    + left. apply json_name_plain in J as (P & t & M & ->). eauto 7.
    + right. apply json_name_system in J. eauto.
Qed.

Lemma member_app m m' n vt v : member (m ++ m') n vt v <-> member m n vt v \/ member m' n vt v.
Proof.
  rewrite !member_iff. split.
  - intros (k & I & J). apply in_app_or in I as [I|I]; eauto.
  - intros [(k & I & J)|(k & I & J)]; exists k; (split; [apply in_or_app; auto|exact J]).
Qed.
Lemma word_app m m' s v : word (m ++ m') s v <-> word m s v \/ word m' s v.
Proof. unfold word. apply in_app_iff. Qed.
Lemma known_app m m' : known_keys (m ++ m') <-> known_keys m /\ known_keys m'.
Proof.
  unfold known_keys. split.
  - intros H. split; intros; eapply H, in_or_app; eauto.
  - intros [H H'] k v I. apply in_app_or in I as [I|I]; eauto.
Qed.
Lemma member_one k x n vt v : member [(k, x)] n vt v <-> v = x /\ json_name k = Some (NName n vt).
Proof.
  rewrite member_iff. split.
  - intros (key & [E|[]] & J). apply pair_equal_spec in E as [-> ->]. auto.
  - intros [-> J]. exists k. split; [left; reflexivity|exact J].
Qed.
Lemma word_one k x s v : word [(k, x)] s v <-> v = x /\ json_name k = Some (NSystem s).
Proof.
  rewrite word_iff. split.
  - intros (key & [E|[]] & J). apply pair_equal_spec in E as [-> ->]. auto.
  - intros [-> J]. exists k. split; [left; reflexivity|exact J].
Qed.
Lemma member_names_in m n vt v : member m n vt v -> In n (member_names m).
Proof.
  intros H. apply member_iff in H as (k & I & J). unfold member_names. apply in_flat_map. exists (k, v). split; [exact I|]. cbn [fst]. rewrite J. left; reflexivity.
Qed.
Lemma member_names_out m n : In n (member_names m) -> exists vt v, member m n vt v.
Proof.
  unfold member_names. intros H. apply in_flat_map in H as ([k v] & I & J). cbn [fst] in J. destruct (json_name k) as [[n' vt|]|] eqn:E; cbn in J; try (exfalso; exact J).
  destruct J as [->|[]]. exists vt, v. apply member_iff. eauto.
Qed.
Lemma member_names_app m m' : member_names (m ++ m') = member_names m ++ member_names m'.
Proof. unfold member_names. apply flat_map_app. Qed.
Lemma word_unique m s v v' : NoDup (map fst m) -> word m s v -> word m s v' -> v = v'.
Proof.
  unfold word. intros N I I'. apply in_hget in I; [|exact N]. apply in_hget in I'; [|exact N]. congruence.
Qed.
Lemma member_unique m n vt vt' v v' : NoDup (map fst m) -> NoDup (member_names m) -> member m n vt v -> member m n vt' v' -> vt = vt' /\ v = v'.
Proof.
  intros N N' H H'. apply member_iff in H as (k & I & J). apply member_iff in H' as (k' & I' & J').
  assert (E : (k, v) = (k', v')).
  { clear N. induction m as [|e m IH]; [destruct I|]. rewrite member_names_cons in N'.
    destruct I as [->|I], I' as [->|I']; [reflexivity| | |].
    - exfalso. unfold member_names at 1 in N'. cbn [flat_map fst] in N'. rewrite J in N'. cbn in N'. inversion N'; subst.
      apply H1. eapply member_names_in, member_iff. eauto.
    - exfalso. unfold member_names at 1 in N'. cbn [flat_map fst] in N'. rewrite J' in N'. cbn in N'. inversion N'; subst.
      apply H1. eapply member_names_in, member_iff. eauto.
    - apply nodup_app_r in N'. auto. }
  apply pair_equal_spec in E as [-> ->]. rewrite J in J'. split; [congruence|reflexivity].
Qed.

(* ------------------------------------------------------------------ *)
(** * Objects *)

Lemma says_id_skip m k x o : json_name k <> Some (NSystem SID) -> says_id m o -> says_id (m ++ [(k, x)]) o.
Proof.
  intros K [A B]. split.
  - intros v W. apply word_app in W as [W|W]; [auto|]. apply word_one in W as [_ W]. congruence.
  - intros W. apply B. intros v V. apply (W v), word_app. auto.
Qed.
Lemma says_old_skip m k x o : json_name k <> Some (NSystem SOld) -> says_old m o -> says_old (m ++ [(k, x)]) o.
Proof.
  intros K [A B]. split.
  - intros v W. apply word_app in W as [W|W]; [auto|]. apply word_one in W as [_ W]. congruence.
  - intros W. apply B. intros v V. apply (W v), word_app. auto.
Qed.
Lemma says_refs_skip m k x r e o : json_name k <> Some (NSystem SRef) -> json_name k <> Some (NSystem SEnum) ->
  says_refs m r e o -> says_refs (m ++ [(k, x)]) r e o.
Proof.
  intros K K' (A & B & C). split; [|split].
  - intros v [W|W]; apply word_app in W as [W|W]; auto; apply word_one in W as [_ W]; congruence.
  - intros W W'. apply B; intros v V; [apply (W v)|apply (W' v)]; apply word_app; auto.
  - rewrite C. split; intros [v V]; exists v; [apply word_app; auto|]. apply word_app in V as [V|V]; [exact V|]. apply word_one in V as [_ V]. congruence.
Qed.
Lemma old_nil m ns : says_old m ns -> says_old m ns. Proof. auto. Qed.

(** the object [o] made of the members [m], whose values are related by [R] *)
Definition says_tmp (R : var_type -> jval -> rvalue -> Prop) (m : list (name * jval)) (o : tmp_obj) : Prop :=
  known_keys m /\ says_id m (to_id o) /\ says_old m (to_old o) /\
  says_refs m (tr_map (to_refs o)) (tr_enum (to_refs o)) (tr_old (to_refs o)) /\
  NoDup (map fst (to_default o)) /\ NoDup (map fst (tr_map (to_refs o))) /\
  (forall n vt v, member m n vt v -> exists i r, hget n (to_default o) = Some (i, r) /\ R vt v r) /\
  (forall n x, hget n (to_default o) = Some x -> exists vt v, member m n vt v).

(** a reference before its text is looked at *)
Definition ref_value (vt : var_type) (v : jval) (r : rvalue) : Prop :=
  match v with
  | JString s => exists a, r = VaParam (PString (Val (a, s))) vt
  | JNull => r = VaParam (PString Null) vt
  | JUndefined => r = VaParam (PString Undefined) vt
  | _ => False
  end.

(** a loop that fills a map *)
Lemma mfold_hset {E B} (key : E -> name) (val : E -> res B) l : forall acc r,
  mfold (fun r e => d <- val e ; Ok (hset (key e) d r)) l acc = Ok r -> NoDup (map key l) ->
  (forall k, ~ In k (map key l) -> hget k r = hget k acc) /\
  (forall e, In e l -> exists d, val e = Ok d /\ hget (key e) r = Some d) /\
  (NoDup (map fst acc) -> NoDup (map fst r)).
Proof.
  induction l as [|e l IH]; intros acc r H N; cbn [mfold] in H.
  - apply Ok_inj in H as <-. split; [auto|]. split; [intros e []|auto].
  - apply bind_ok in H as (acc' & H & Hr). apply bind_ok in H as (d & Hd & H). apply Ok_inj in H as <-. cbn [map] in N. inversion N as [|? ? Nk N']; subst.
    destruct (IH _ _ Hr N') as (A & B1 & C). split; [|split].
    + intros k K. rewrite A; [|intros I; apply K; right; exact I]. apply hget_hset_other. intros ->. apply K. left; reflexivity.
    + intros e' [<-|I']; [|auto]. exists d. split; [exact Hd|]. rewrite A by exact Nk. apply hget_hset_same.
    + intros Na. apply C, hset_nodup, Na.
Qed.
Lemma mfold_hset_ok {E B} (key : E -> name) (val : E -> res B) l : (forall e, In e l -> exists d, val e = Ok d) ->
  forall acc, exists r, mfold (fun r e => d <- val e ; Ok (hset (key e) d r)) l acc = Ok r.
Proof.
  induction l as [|e l IH]; intros H acc; cbn [mfold]; [eauto|].
  destruct (H e (or_introl eq_refl)) as (d & ->). cbn [bind]. apply IH. intros; apply H; right; assumption.
Qed.
Lemma in_enumerate {A} (l : list A) x : forall i, In x l -> exists j, In (j, x) (enumerate_from i l).
Proof. induction l as [|y l IH]; intros i; [intros []|]. intros [->|I]; cbn; [eauto|]. destruct (IH (i + 1) I) as [j J]. eauto. Qed.
Lemma enumerate_snd {A B} (f : A -> B) (l : list A) : forall i, map (fun e => f (snd e)) (enumerate_from i l) = map f l.
Proof. induction l as [|y l IH]; intros i; cbn; [reflexivity|]. rewrite IH. reflexivity. Qed.
Lemma enumerate_in {A} (l : list A) j x : forall i, In (j, x) (enumerate_from i l) -> In x l.
Proof. induction l as [|y l IH]; intros i; [intros []|]. cbn. intros [E|I]; [injection E as _ ->; auto|]. right. eapply IH, I. Qed.

Section Conversion.
Variable addr : list Z -> Z.
Variable iter : forall A, hmap A -> hmap A.
Hypothesis It : iterates iter.

Lemma in_iter {A} (m : hmap A) e : In e m -> In e (iter A m).
Proof. intros I. eapply Permutation_in; [apply Permutation_sym, It|exact I]. Qed.

(** the members of a map, converted and numbered anew *)
Definition renumbered {B} (f : rvalue -> res B) (m : hmap (Z * rvalue)) : res (hmap (Z * B)) :=
  mfold (fun r e => d <- (d <- f (snd (snd (snd e))) ; Ok (fst e, d)) ; Ok (hset (fst (snd e)) d r)) (enumerate (iter _ m)) [].
Lemma renumbered_says {B} (f : rvalue -> res B) m r : renumbered f m = Ok r -> NoDup (map fst m) ->
  NoDup (map fst r) /\
  (forall n i v, hget n m = Some (i, v) -> exists j d, hget n r = Some (j, d) /\ f v = Ok d) /\
  (forall n x, hget n r = Some x -> exists y, hget n m = Some y).
Proof.
  intros H N. unfold renumbered, enumerate in H.
  apply (mfold_hset (fun e : Z * (name * (Z * rvalue)) => fst (snd e)) (fun e => d <- f (snd (snd (snd e))) ; Ok (fst e, d))) in H as (A & B1 & C).
  2:{ rewrite (enumerate_snd fst). apply (iter_nodup _ It), N. }
  split; [apply C; constructor|]. split.
  - intros n i v G. apply hget_in, in_iter in G. destruct (in_enumerate _ _ 0 G) as [j J]. destruct (B1 _ J) as (d & E & G'). cbn [fst snd] in E, G'.
    apply bind_ok in E as (d' & E & E'). apply Ok_inj in E' as <-. eauto.
  - intros n x G. destruct (hget n m) as [y|] eqn:E; [eauto|]. rewrite A in G; [discriminate G|]. rewrite (enumerate_snd fst). intros I.
    apply (Permutation_in _ (iter_keys _ It m)) in I. apply hget_none in E. contradiction.
Qed.
Lemma renumbered_ok {B} (f : rvalue -> res B) m : (forall n i v, In (n, (i, v)) m -> exists d, f v = Ok d) -> exists r, renumbered f m = Ok r.
Proof.
  intros H. unfold renumbered. apply mfold_hset_ok with (key := fun e : Z * (name * (Z * rvalue)) => fst (snd e)). intros [j [n [i v]]] I. apply enumerate_in, (iter_in _ It), H in I as (d & E).
  cbn [fst snd]. rewrite E. cbn. eauto.
Qed.

Lemma def_map_renumbered m : to_list_def_val_map iter m = renumbered into_list_def_value m.
Proof. unfold to_list_def_val_map, renumbered. apply mfold_ext. intros r [j [n [i v]]] _. cbn [fst snd]. destruct (into_list_def_value v); reflexivity. Qed.

(** what becomes of a reference *)
Definition ref_of (v : rvalue) : res (qv (list Z) * var_type) :=
  match v with
  | VaParam (PString q) vt =>
      match q with
      | Val s => if negb (is_some (json_simple_name (snd s))) && negb (is_nil (snd s)) then Err else Ok (JsonModel.ref_text q, vt)
      | _ => Ok (JsonModel.ref_text q, vt)
      end
  | _ => Err
  end.
Definition get_ref' (obj : list (name * jval) -> bool -> res tmp_obj) (m : list (name * jval)) : res tmp_refs :=
  o <- obj m true ;
  if negb (is_nil (tr_map (to_refs o))) || is_some (to_id o) then Err else
  refs <- renumbered ref_of (to_default o) ; Ok (TmpRefs refs (to_old o) false).
Lemma get_ref_renumbered obj m : get_ref iter obj m = get_ref' obj m.
Proof.
  unfold get_ref, get_ref', renumbered. destruct (obj m true) as [o| |]; try reflexivity. cbn [bind]. destruct (_ || _); [reflexivity|].
  erewrite mfold_ext; [reflexivity|]. intros r [j [n [i v]]] _. cbn [fst snd]. destruct v; try reflexivity. destruct p; try reflexivity.
  destruct q; try reflexivity. unfold ref_of. cbn [snd]. destruct (_ && _); reflexivity.
Qed.

Lemma ref_of_writes vt v r x : ref_value vt v r -> ref_of r = Ok x -> snd x = vt /\ writes_ref v (fst x).
Proof.
  intros R E. destruct v; try (exfalso; exact R).
  - cbn in R. subst r. cbn in E. apply Ok_inj in E as <-. split; [reflexivity|]. apply ref_nothing, nothing_null.
  - cbn in R. subst r. cbn in E. apply Ok_inj in E as <-. split; [reflexivity|]. apply ref_nothing, nothing_undefined.
  - destruct R as [a ->]. cbn in E. destruct (json_simple_name s) as [y|] eqn:J; cbn in E.
    + apply Ok_inj in E as <-. split; [reflexivity|]. apply simple_name_spec in J as [J _]. apply ref_text. auto.
    + destruct s; cbn in E; [|discriminate E]. apply Ok_inj in E as <-. split; [reflexivity|]. apply ref_text. auto.
Qed.
Lemma ref_of_ok vt v r q : ref_value vt v r -> writes_ref v q -> exists x, ref_of r = Ok x.
Proof.
  intros R W. inversion W as [s P|? ? N]; subst.
  - destruct R as [a ->]. cbn. destruct P as [P| ->]; [|rewrite andb_false_r; eauto].
    rewrite (proj2 (simple_name_spec s s) (conj P eq_refl)). cbn. eauto.
  - inversion N; subst; cbn in R; subst r; cbn; eauto.
Qed.

Lemma get_old_writes a ns : get_old a = Ok ns -> writes_names a ns.
Proof.
  unfold get_old. intros H.
  assert (G : forall l acc, mfold (fun result item =>
           match item with
           | JString s => match json_name s with Some (NName nm Normal) => Ok (sinsert nm result) | _ => Err end
           | _ => Err
           end) l acc = Ok ns -> (forall v, In v l -> exists n, v = JString n /\ plain_name n /\ In n ns) /\ (forall n, In n acc -> In n ns) /\ (forall n, In n ns -> In n acc \/ In (JString n) l)).
  { induction l as [|x l IH]; intros acc E; cbn [mfold] in E.
    - apply Ok_inj in E as <-. split; [intros v []|]. auto.
    - apply bind_ok in E as (acc' & E & E'). destruct x; try discriminate E. destruct (json_name s) as [[nm []|]|] eqn:J; try discriminate E.
      apply Ok_inj in E as <-. apply json_name_plain in J as (P & t & M & ->). inversion M; subst. rewrite app_nil_r in *.
      destruct (IH _ E') as (A & B & C).
      assert (S1 : forall n, In n (sinsert nm acc) <-> n = nm \/ In n acc).
      { intros n. unfold sinsert. destruct (existsb (eqb_bytes nm) acc) eqn:X.
        - apply existsb_exists in X as (y & I & Y). apply eqb_bytes_eq in Y as <-. split; [auto|]. intros [->|]; assumption.
        - rewrite in_app_iff. cbn. split; [intros [Y|[Y|[]]]; auto|intros [->|Y]; auto]. }
      split; [|split].
      + intros v [<-|I]; [|auto]. exists nm. split; [reflexivity|]. split; [exact P|]. apply B, S1. auto.
      + intros n I. apply B, S1. auto.
      + intros n I. apply C in I as [I|I]; [|cbn; auto]. apply S1 in I as [->|I]; cbn; auto. }
  apply G in H as (A & _ & C). split; [exact A|]. intros n I. apply C in I as [[]|I]. exact I.
Qed.
Lemma get_old_ok a ns : writes_names a ns -> exists ns', get_old a = Ok ns'.
Proof.
  intros [H _]. unfold get_old. generalize (@nil name) as acc. induction a as [|x a IH]; intros acc; cbn [mfold]; [eauto|].
  destruct (H x (or_introl eq_refl)) as (n & -> & P & _).
  replace (json_name n) with (Some (NName n Normal)).
  2:{ symmetry. apply json_name_plain. split; [exact P|]. exists []. split; [constructor|]. rewrite app_nil_r. reflexivity. }
  cbn [bind]. apply IH. intros; apply H; right; assumption.
Qed.

Lemma get_id_writes v i : get_id v = Some i -> (forall b, v = JDouble b -> exists n, 0 <= n < 2 ^ 64 /\ fdec F64 b = FNum false (n * 2 ^ unit_exp)) -> writes_id v i.
Proof.
  intros E H. destruct v; try discriminate E; cbn in E; injection E as <-; [constructor|].
  destruct (H _ eq_refl) as (n & L & F). rewrite F. cbn [to_uint signed]. rewrite Z.div_mul by (apply Z.pow_nonzero; [lia|vm_compute; discriminate]).
  replace (Z.max 0 (Z.min (2 ^ 64 - 1) n)) with n by lia. constructor; assumption.
Qed.
Lemma get_id_ok v i : writes_id v i -> exists j, get_id v = Some j.
Proof. intros W. inversion W; subst; cbn; eauto. Qed.

(** the fourth condition of a tidy object *)
Section Object.
Variable arr : list jval -> var_type -> res rvalue.
Variable obj : list (name * jval) -> bool -> res tmp_obj.
Variable R : var_type -> jval -> rvalue -> Prop.

Lemma get_ref_says m r : (forall o, obj m true = Ok o -> says_tmp ref_value m o) -> get_ref iter obj m = Ok r ->
  writes_refs m (tr_map r) (tr_old r) /\ tr_enum r = false /\ NoDup (map fst (tr_map r)).
Proof.
  intros Ho. rewrite get_ref_renumbered. unfold get_ref'. intros E. apply bind_ok in E as (o & E & E'). specialize (Ho _ E) as (K & I & O & _ & N & _ & M1 & M2).
  destruct (_ || _) eqn:X; [discriminate E'|]. apply orb_false_iff in X as [_ X]. apply bind_ok in E' as (refs & E' & E2). apply Ok_inj in E2 as <-. cbn [tr_map tr_old tr_enum].
  destruct (renumbered_says _ _ _ E' N) as (N' & A & B). split; [|auto]. split; [exact K|]. split; [|split; [exact O|split]].
  - intros v W. apply (proj1 I) in W as (i & W & _). rewrite W in X. discriminate X.
  - intros n vt v V. destruct (M1 _ _ _ V) as (i & r & G & Rr). destruct (A _ _ _ G) as (j & d & G' & D). exists j, (fst d).
    destruct (ref_of_writes _ _ _ _ Rr D) as [<- W]. destruct d. auto.
  - intros n x G. apply B in G as (y & G). eapply M2, G.
Qed.

(** one step *)
Lemma obj_step_says is_ref seen l e o c o' c' :
  tidy_node (JMap (seen ++ e :: l)) ->
  (forall vt r, (if is_ref : bool then json_item_to_rust_ref addr vt (snd e) else json_item_to_rust addr arr vt (snd e)) = Ok r -> R vt (snd e) r) ->
  (forall m o, snd e = JMap m -> obj m true = Ok o -> says_tmp ref_value m o) ->
  says_tmp R seen o -> obj_step addr iter arr obj is_ref (o, c) e = Ok (o', c') -> says_tmp R (seen ++ [e]) o'.
Proof.
  destruct e as [k v]. cbn [snd]. intros (T1 & T2 & T3 & T4 & T5) Hv Hm (K & I & O & Rf & N & Nr & M1 & M2) E.
  replace (seen ++ (k, v) :: l) with ((seen ++ [(k, v)]) ++ l) in * by (rewrite <- app_assoc; reflexivity).
  assert (Kn : known_keys (seen ++ [(k, v)])).
  { apply known_app. split; [exact K|]. apply known_iff. intros key x [Ex|[]]. apply pair_equal_spec in Ex as [<- <-]. intros J. unfold obj_step in E. rewrite J in E. discriminate E. }
  assert (Nk : ~ In k (map fst seen)).
  { rewrite !map_app in T1. cbn [map fst] in T1. rewrite <- app_assoc in T1. apply NoDup_remove_2 in T1. intros X. apply T1, in_or_app. auto. }
  assert (Ws : forall s, json_name k = Some (NSystem s) -> no_word seen s).
  { intros s J x X. apply json_name_system in J. apply Nk. rewrite J. apply (in_map fst) in X. exact X. }
  assert (Skip : (forall n vt, json_name k <> Some (NName n vt)) -> (forall n vt v0, member (seen ++ [(k, v)]) n vt v0 <-> member seen n vt v0)).
  { intros X n vt v0. rewrite member_app, member_one. split; [|auto]. intros [Y|[_ Y]]; [exact Y|]. exfalso. eapply X, Y. }
  unfold obj_step in E. destruct (json_name k) as [[nm vt|s]|] eqn:J; [| |discriminate E].
  - apply bind_ok in E as (r & E & E'). apply Ok_inj, pair_equal_spec in E' as [<- _]. unfold says_tmp. cbn [to_default to_id to_refs to_old].
    assert (Nn : ~ In nm (member_names seen)).
    { rewrite member_names_app in T2. apply nodup_app_l in T2. rewrite member_names_app in T2. unfold member_names at 2 in T2. cbn [flat_map fst] in T2. rewrite J in T2. cbn in T2.
      apply NoDup_remove_2 in T2. rewrite app_nil_r in T2. exact T2. }
    split; [exact Kn|]. split; [apply says_id_skip; [congruence|exact I]|]. split; [apply says_old_skip; [congruence|exact O]|].
    split; [apply says_refs_skip; [congruence|congruence|exact Rf]|]. split; [apply hset_nodup, N|]. split; [exact Nr|]. split.
    + intros n vt' v' V. apply member_app in V as [V|V].
      * destruct (M1 _ _ _ V) as (i & r' & G & Rr). exists i, r'. split; [|exact Rr]. rewrite hget_hset_other; [exact G|].
        intros X. apply Nn. first [rewrite X | rewrite <- X]. eapply member_names_in, V.
      * apply member_one in V as [-> V]. rewrite J in V. injection V as <- <-. exists c, r. split; [apply hget_hset_same|]. apply Hv, E.
    + intros n x G. destruct (list_eq_dec Z.eq_dec n nm) as [->|X].
      * exists vt, v. apply member_app. right. apply member_one. auto.
      * rewrite hget_hset_other in G by congruence. destruct (M2 _ _ G) as (vt' & v' & V). exists vt', v'. apply member_app. auto.
  - assert (X : forall n vt, Some (NSystem s) <> Some (NName n vt)) by discriminate. specialize (Skip X). clear X. rewrite <- J in *.
    assert (M1' : forall n vt v0, member (seen ++ [(k, v)]) n vt v0 -> exists i r, hget n (to_default o) = Some (i, r) /\ R vt v0 r) by (intros n vt v0 V; apply Skip in V; auto).
    assert (M2' : forall n x, hget n (to_default o) = Some x -> exists vt v0, member (seen ++ [(k, v)]) n vt v0).
    { intros n x G. destruct (M2 _ _ G) as (vt & v0 & V). exists vt, v0. apply Skip, V. }
    destruct s.
    + (* Old *)
      destruct v; try discriminate E. apply bind_ok in E as (old & E & E'). apply Ok_inj, pair_equal_spec in E' as [<- _].
      unfold says_tmp. cbn [to_default to_id to_refs to_old].
      split; [exact Kn|]. split; [apply says_id_skip; [congruence|exact I]|]. split; [|split; [apply says_refs_skip; [congruence|congruence|exact Rf]|auto]].
      split.
      * intros x X. apply word_app in X as [X|X]; [exfalso; eapply Ws; eassumption|]. apply word_one in X as [-> _]. exists l0. split; [reflexivity|]. apply get_old_writes, E.
      * intros X. exfalso. apply (X (JArray l0)), word_app. right. apply word_one. auto.
    + (* ID *)
      destruct (is_some (to_id o)); [discriminate E|]. destruct (get_id v) as [i|] eqn:G; [|discriminate E]. apply Ok_inj, pair_equal_spec in E as [<- _].
      unfold says_tmp. cbn [to_default to_id to_refs to_old].
      split; [exact Kn|]. split; [|split; [apply says_old_skip; [congruence|exact O]|split; [apply says_refs_skip; [congruence|congruence|exact Rf]|auto]]].
      split.
      * intros x X. apply word_app in X as [X|X]; [exfalso; eapply Ws; eassumption|]. apply word_one in X as [-> _]. exists i. split; [reflexivity|]. apply get_id_writes; [exact G|].
        intros b ->. apply T5. rewrite <- !app_assoc. apply word_app. right. apply word_app. left. apply word_one. auto.
      * intros X. exfalso. apply (X v), word_app. right. apply word_one. auto.
    + (* Ref *)
      destruct (is_nil (tr_map (to_refs o))); [|discriminate E]. destruct v; try discriminate E. cbn [negb] in E. apply bind_ok in E as (refs & E & E').
      apply Ok_inj, pair_equal_spec in E' as [<- _]. apply get_ref_says in E as (W & En & Nw); [|intros; eapply Hm; eauto].
      unfold says_tmp. cbn [to_default to_id to_refs to_old tr_map tr_old tr_enum]. rewrite En. cbn [orb].
      split; [exact Kn|]. split; [apply says_id_skip; [congruence|exact I]|]. split; [apply says_old_skip; [congruence|exact O]|]. split; [|auto].
      assert (Nref : no_word (seen ++ [(k, JMap m)]) SEnum).
      { destruct T3 as [T3|T3]; [exfalso; apply (T3 (JMap m)); rewrite word_app; left; apply word_app; right; apply word_one; auto|].
        intros x X. apply (T3 x), word_app. auto. }
      split; [|split].
      * intros x [X|X]; [|exfalso; eapply Nref, X]. apply word_app in X as [X|X]; [exfalso; eapply Ws; eassumption|]. apply word_one in X as [-> _]. eauto.
      * intros X. exfalso. apply (X (JMap m)), word_app. right. apply word_one. auto.
      * split; [discriminate|]. intros [x X]. exfalso. eapply Nref, X.
    + (* Enum *)
      destruct (is_nil (tr_map (to_refs o))); [|discriminate E]. destruct v; try discriminate E. cbn [negb] in E. apply bind_ok in E as (refs & E & E').
      apply Ok_inj, pair_equal_spec in E' as [<- _]. apply get_ref_says in E as (W & En & Nw); [|intros; eapply Hm; eauto].
      unfold says_tmp. cbn [to_default to_id to_refs to_old tr_map tr_old tr_enum orb].
      split; [exact Kn|]. split; [apply says_id_skip; [congruence|exact I]|]. split; [apply says_old_skip; [congruence|exact O]|]. split; [|auto].
      assert (We : word (seen ++ [(k, JMap m)]) SEnum (JMap m)) by (apply word_app; right; apply word_one; auto).
      assert (Nref : no_word (seen ++ [(k, JMap m)]) SRef).
      { destruct T3 as [T3|T3]; [|exfalso; apply (T3 (JMap m)); rewrite word_app; left; exact We].
        intros x X. apply (T3 x), word_app. auto. }
      split; [|split].
      * intros x [X|X]; [exfalso; eapply Nref, X|]. apply word_app in X as [X|X]; [exfalso; eapply Ws; eassumption|]. apply word_one in X as [-> _]. eauto.
      * intros _ X. exfalso. apply (X (JMap m)), We.
      * split; [eauto|reflexivity].
Qed.

Lemma new_tmp_says : says_tmp R [] new_tmp_obj.
Proof.
  unfold says_tmp. cbn. split; [intros k v []|]. split; [split; [intros v []|auto]|]. split; [split; [intros v []|auto]|].
  split; [split; [intros v [[]|[]]|split; [auto|split; [discriminate|intros [v []]]]]|].
  split; [constructor|]. split; [constructor|]. split; [intros n vt v V; apply member_iff in V as (k & [] & _)|discriminate].
Qed.

Lemma obj_fold_says is_ref l : forall seen o c o' c',
  tidy_node (JMap (seen ++ l)) ->
  (forall k v vt r, In (k, v) l -> (if is_ref : bool then json_item_to_rust_ref addr vt v else json_item_to_rust addr arr vt v) = Ok r -> R vt v r) ->
  (forall k m o, In (k, JMap m) l -> obj m true = Ok o -> says_tmp ref_value m o) ->
  says_tmp R seen o -> mfold (obj_step addr iter arr obj is_ref) l (o, c) = Ok (o', c') -> says_tmp R (seen ++ l) o'.
Proof.
  induction l as [|[k v] l IH]; intros seen o c o' c' T Hv Hm S E; cbn [mfold] in E.
  - apply Ok_inj, pair_equal_spec in E as [<- _]. rewrite app_nil_r. exact S.
  - apply bind_ok in E as ([o1 c1] & E1 & E2). replace (seen ++ (k, v) :: l) with ((seen ++ [(k, v)]) ++ l) in * by (rewrite <- app_assoc; reflexivity).
    eapply IH; [exact T| | | |exact E2].
    + intros; eapply Hv; [right; eassumption|assumption].
    + intros; eapply Hm; [right; eassumption|assumption].
    + eapply obj_step_says; [rewrite <- app_assoc in T; exact T| | |exact S|exact E1].
      * intros; eapply Hv; [left; reflexivity|assumption].
      * cbn. intros m o0 ->. intros; eapply Hm; [left; reflexivity|assumption].
Qed.

Lemma json_obj_says is_ref m o : tidy_node (JMap m) ->
  (forall k v vt r, In (k, v) m -> (if is_ref : bool then json_item_to_rust_ref addr vt v else json_item_to_rust addr arr vt v) = Ok r -> R vt v r) ->
  (forall k m' o, In (k, JMap m') m -> obj m' true = Ok o -> says_tmp ref_value m' o) ->
  json_obj_to_rust addr iter arr obj m is_ref = Ok o -> says_tmp R m o.
Proof.
  intros T Hv Hm E. unfold json_obj_to_rust in E. apply bind_ok in E as ([r c] & E & E'). apply Ok_inj in E' as <-.
  apply (obj_fold_says is_ref m [] new_tmp_obj 0 r c T Hv Hm new_tmp_says E).
Qed.
End Object.

Lemma ref_value_says vt v r : json_item_to_rust_ref addr vt v = Ok r -> ref_value vt v r.
Proof. intros E. destruct v; try discriminate E; cbn in *; apply Ok_inj in E as <-; eauto. unfold new_arc. eauto. Qed.

End Conversion.
