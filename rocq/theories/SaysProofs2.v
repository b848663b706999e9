(** What is loaded is what the source says: arrays and lists (C61). *)
From Coq Require Import String.
From Coq Require Import Sorting.Permutation.
From Verif Require Import Base FloatModel FloatProofs StringCompactionModel StringCompactionProofs DocModel DiffSpec DiffProofs DiffEditProofs
  ArchiveModel JsonModel JsonSpec JsonNameProofs JsonProofs LoadSpec LoadProofs SaysSpec SaysProofs.

(* ------------------------------------------------------------------ *)
(** * Lists *)

Lemma mmap_forall2 {A B} (f : A -> res B) l r : mmap f l = Ok r -> Forall2 (fun a b => f a = Ok b) l r.
Proof.
  revert r. induction l as [|a l IH]; intros r E; cbn [mmap] in E.
  - apply Ok_inj in E as <-. constructor.
  - apply bind_ok in E as (b & E & E1). apply bind_ok in E1 as (r' & E1 & E2). apply Ok_inj in E2 as <-. constructor; auto.
Qed.
Lemma mmap_ok {A B} (f : A -> res B) l : (forall a, In a l -> exists b, f a = Ok b) -> exists r, mmap f l = Ok r.
Proof.
  induction l as [|a l IH]; intros H; cbn [mmap]; [eauto|]. destruct (H a (or_introl eq_refl)) as [b ->]. cbn [bind].
  destruct IH as [r ->]; [intros; apply H; right; assumption|]. cbn. eauto.
Qed.
Lemma forall2_impl_in {A B} (R Q : A -> B -> Prop) l r : Forall2 R l r -> (forall a b, In a l -> In b r -> R a b -> Q a b) -> Forall2 Q l r.
Proof. induction 1 as [|a b l r H F IH]; intros H'; constructor; [apply H'; cbn; auto|]. apply IH. intros; apply H'; cbn; auto. Qed.
Lemma forall2_perm {A B} (R : A -> B -> Prop) l r r' : Forall2 R l r -> Permutation r r' -> exists l', Permutation l l' /\ Forall2 R l' r'.
Proof.
  intros F P. revert l F. induction P as [|x r r' P IH|x y r|r r1 r2 P1 IH1 P2 IH2]; intros l F.
  - inversion F; subst. exists []. auto.
  - inversion F as [|a ? l0 ? H F']; subst. destruct (IH _ F') as (l' & P' & G). exists (a :: l'). auto.
  - inversion F as [|a ? l0 ? H F']; subst. inversion F' as [|b ? l1 ? H' F'']; subst. exists (b :: a :: l1). split; [apply perm_swap|auto].
  - destruct (IH1 _ F) as (l1 & Q1 & F1). destruct (IH2 _ F1) as (l2 & Q2 & F2). exists l2. split; [etransitivity; eassumption|exact F2].
Qed.
Lemma forall2_chain {A B C} (R : A -> B -> Prop) (Q : B -> C -> Prop) l m r : Forall2 R l m -> Forall2 Q m r -> Forall2 (fun a c => exists b, R a b /\ Q b c) l r.
Proof.
  intros F. revert r. induction F as [|a b l m H F IH]; intros r G; inversion G; subst; constructor; eauto.
Qed.

Lemma forall2_length {A B} (R : A -> B -> Prop) l r : Forall2 R l r -> length l = length r.
Proof. induction 1; cbn; congruence. Qed.

Definition olist {A B} (f : A -> B) (o : option A) : list B := match o with Some a => [f a] | None => [] end.
Definition kinds_of (t : tmp_list) : list attribute := olist ADefault (tl_default t) ++ olist AOld (tl_old t) ++ olist ANextID (tl_next t).

Section Conversion.
Variable addr : list Z -> Z.
Variable iter : forall A, hmap A -> hmap A.
Hypothesis It : iterates iter.

Section Loop.
Variable obj : list (name * jval) -> bool -> res tmp_obj.

Lemma list_items_maps a r : get_list_items obj a = Ok r -> exists objs, a = map JMap objs /\ Forall2 (fun m o => obj m false = Ok o) objs r.
Proof.
  intros E. apply mmap_forall2 in E. induction E as [|x o a r H F IH]; [exists []; auto|].
  destruct x; try discriminate H. destruct IH as (objs & -> & G). exists (m :: objs). auto.
Qed.
Lemma list_loop_parts a : forall t t', json_list_loop iter obj t a = Ok t' -> tl_vec t = [] ->
  exists attrs kinds objs, a = map JArray attrs ++ map JMap objs /\ Forall2 (fun x k => list_attribute iter obj x = Ok k) attrs kinds /\
    Forall2 (fun m o => obj m false = Ok o) objs (tl_vec t') /\ Permutation (kinds_of t') (kinds_of t ++ kinds).
Proof.
  induction a as [|x a IH]; intros t t' E V; cbn [json_list_loop] in E.
  - apply Ok_inj in E as <-. exists [], [], []. rewrite V. split; [reflexivity|]. split; [apply Forall2_nil|]. split; [apply Forall2_nil|]. rewrite app_nil_r. apply Permutation_refl.
  - destruct x; try discriminate E.
    + apply bind_ok in E as (k & Ek & E). apply bind_ok in E as (t1 & Et & E).
      assert (P : tl_vec t1 = [] /\ Permutation (kinds_of t1) (kinds_of t ++ [k])).
      { unfold kinds_of. destruct k; cbn in Et.
        - destruct (tl_default t); cbn in Et; [discriminate Et|]. apply Ok_inj in Et as <-. cbn. split; [exact V|]. apply Permutation_cons_append.
        - destruct (tl_old t); cbn in Et; [discriminate Et|]. apply Ok_inj in Et as <-. cbn. split; [exact V|]. rewrite <- app_assoc. apply Permutation_app_head, Permutation_cons_append.
        - destruct (tl_next t); cbn in Et; [discriminate Et|]. apply Ok_inj in Et as <-. cbn. split; [exact V|]. rewrite <- !app_assoc. reflexivity. }
      destruct P as [V1 P]. destruct (IH _ _ E V1) as (attrs & kinds & objs & -> & F & G & P'). exists (l :: attrs), (k :: kinds), objs. split; [reflexivity|]. split; [auto|]. split; [exact G|].
      rewrite P', P, <- app_assoc. reflexivity.
    + apply bind_ok in E as (items & Ei & E). apply Ok_inj in E as <-. apply list_items_maps in Ei as (objs & -> & F).
      exists [], [], objs. split; [reflexivity|]. split; [auto|]. split; [exact F|]. rewrite app_nil_r. reflexivity.
Qed.
Lemma list_parts a t : json_list_to_rust iter obj a = Ok t ->
  exists attrs objs, a = map JArray attrs ++ map JMap objs /\ Forall2 (fun m o => obj m false = Ok o) objs (tl_vec t) /\
    exists attrs', Permutation attrs attrs' /\ Forall2 (fun x k => list_attribute iter obj x = Ok k) attrs' (kinds_of t).
Proof.
  intros E. apply list_loop_parts in E as (attrs & kinds & objs & -> & F & G & P); [|reflexivity]. cbn in P. exists attrs, objs. split; [reflexivity|]. split; [exact G|].
  eapply forall2_perm; [exact F|]. apply Permutation_sym, P.
Qed.
End Loop.

(* ------------------------------------------------------------------ *)
(** * Definitions and items *)

Lemma def_value_in v x : into_list_def_value v = Ok x -> in_def v x.
Proof. destruct v; cbn; intros E; try discriminate E; apply Ok_inj in E as <-; constructor. Qed.
Lemma sab_value_in v x : into_list_sab_value v = Ok x -> in_item v x.
Proof. destruct v; cbn; intros E; try discriminate E; apply Ok_inj in E as <-; constructor. Qed.
Lemma root_value_in v x s : into_root_value v = Ok (x, s) -> in_root v x s.
Proof. destruct v; cbn; intros E; try discriminate E; apply Ok_inj, pair_equal_spec in E as [<- <-]; constructor. Qed.

Lemma id_none m o : says_id m o -> o = None -> no_word m SID.
Proof. intros [A _] -> v W. destruct (A v W) as (i & E & _). discriminate E. Qed.

Lemma def_obj_says m o d : says_tmp says m o -> into_list_def_obj iter o = Ok d -> says_def m d.
Proof.
  intros (K & I & O & Rf & N & Nr & M1 & M2) E. unfold into_list_def_obj in E. destruct (to_id o) eqn:X; [discriminate E|].
  apply bind_ok in E as (ms & E & E'). apply Ok_inj in E' as <-. rewrite def_map_renumbered in E. destruct (renumbered_says iter It _ _ _ E N) as (_ & A & B).
  constructor; cbn [ld_members ld_refs ld_enum ld_old ld_ref_old]; auto.
  - eapply id_none; [exact I|reflexivity].
  - intros n vt v V. destruct (M1 _ _ _ V) as (i & r & G & S). destruct (A _ _ _ G) as (j & x & G' & D). exists j, x, r. split; [exact G'|]. split; [apply def_value_in, D|exact S].
  - intros n x G. apply B in G as (y & G). eapply M2, G.
Qed.

Lemma item_obj_says m o c : says_tmp says m o -> item_of iter o = Ok c -> is_nil (to_old o) && is_nil (tr_old (to_refs o)) = true -> says_item m c.
Proof.
  intros (K & I & O & Rf & N & Nr & M1 & M2) E X. apply andb_true_iff in X as [X1 X2].
  destruct (to_old o); [|discriminate X1]. destruct (tr_old (to_refs o)); [|discriminate X2].
  unfold item_of in E. apply bind_ok in E as (vs & E & E'). apply Ok_inj in E' as <-.
  eapply item_says; [exact K|exact O|exact Rf| | |].
  - cbn [ci_refs]. intros n. unfold to_ref_sab_map.
    assert (G : forall l acc, NoDup (map fst l) -> (forall k, In k (map fst l) -> hget k acc = None) ->
      hget n (fold_left (fun (result : hmap (qv (list Z))) (e : name * (Z * (qv (list Z) * var_type))) => let '(k, (_, (q, _))) := e in hset k q result) l acc) =
      match hget n l with Some x => Some (fst (snd x)) | None => hget n acc end).
    { clear. induction l as [|[k [i [q vt]]] l IH]; intros acc N H; cbn [fold_left]; [reflexivity|]. cbn [map fst] in N. inversion N as [|? ? Nk N']; subst.
      rewrite IH; [|exact N'|].
      - cbn [hget]. destruct (eqb_bytes k n) eqn:X.
        + apply eqb_bytes_eq in X as ->. rewrite (proj2 (hget_none n l) Nk). cbn. apply hget_hset_same.
        + destruct (hget n l); [reflexivity|]. apply hget_hset_other. intros ->. rewrite eqb_bytes_refl in X. discriminate X.
      - intros k' I. rewrite hget_hset_other; [apply H; right; exact I|]. intros ->. contradiction. }
    rewrite G; [|apply (iter_nodup _ It), Nr|reflexivity]. cbn [hget].
    rewrite (hget_perm n _ (tr_map (to_refs o))); [|apply It|apply (iter_nodup _ It), Nr]. destruct (hget n _); reflexivity.
  - cbn [ci_values]. unfold to_list_sab_map in E.
    rewrite (mfold_ext _ (fun r (e : name * (Z * rvalue)) => d <- into_list_sab_value (snd (snd e)) ; Ok (hset (fst e) d r))) in E by (intros a [k [i v]] _; reflexivity).
    apply (mfold_hset fst (fun e : name * (Z * rvalue) => into_list_sab_value (snd (snd e)))) in E as (A & B & _); [|apply (iter_nodup _ It), N].
    intros n vt v V. destruct (M1 _ _ _ V) as (i & r & G & S). apply hget_in, (in_iter _ It), B in G as (d & D & G). exists d, r. split; [exact G|]. split; [apply sab_value_in, D|exact S].
  - cbn [ci_values]. unfold to_list_sab_map in E.
    rewrite (mfold_ext _ (fun r (e : name * (Z * rvalue)) => d <- into_list_sab_value (snd (snd e)) ; Ok (hset (fst e) d r))) in E by (intros a [k [i v]] _; reflexivity).
    apply (mfold_hset fst (fun e : name * (Z * rvalue) => into_list_sab_value (snd (snd e)))) in E as (A & B & _); [|apply (iter_nodup _ It), N].
    intros n x G. destruct (hget n (to_default o)) as [y|] eqn:Y; [eapply M2, Y|]. rewrite A in G; [discriminate G|].
    intros J. apply (Permutation_in _ (iter_keys _ It _)) in J. apply hget_none in Y. contradiction.
Qed.

Lemma list_item_says m o c : says_tmp says m o -> into_list_item iter o = Ok c -> says_id m None /\ says_item m c.
Proof.
  intros S E. unfold into_list_item in E. destruct (to_id o) eqn:X; [discriminate E|]. destruct (_ && _) eqn:Y; [|discriminate E].
  split; [|eapply item_obj_says; eassumption]. destruct S as (_ & S & _). rewrite X in S. exact S.
Qed.
Lemma list_items_says objs vec items : Forall2 (says_tmp says) objs vec -> to_list_items iter vec = Ok items ->
  Forall2 (fun m c => says_id m None /\ says_item m c) objs items.
Proof.
  intros F E. apply mmap_forall2 in E. eapply forall2_impl_in; [eapply forall2_chain; [exact F|exact E]|]. cbn. intros m c _ _ (o & S & X). eapply list_item_says; eassumption.
Qed.
Lemma id_item_says m o e : says_tmp says m o -> into_list_item_with_id iter o = Ok e -> says_id m (Some (IdStr (fst e))) /\ says_item m (snd e).
Proof.
  intros S E. unfold into_list_item_with_id in E. destruct (to_id o) as [[s|]|] eqn:X; [|destruct (_ && _); discriminate E|discriminate E]. destruct (_ && _) eqn:Y; [|discriminate E].
  apply bind_ok in E as (c & E & E'). apply Ok_inj in E' as <-. cbn [fst snd].
  split; [|eapply item_obj_says; eassumption]. destruct S as (_ & S & _). rewrite X in S. exact S.
Qed.

Lemma row_id_written m s o : NoDup (map fst m) -> says_id m (Some (IdStr s)) -> o = hget (txt "ID") m -> match o with Some (JString s) => [s] | _ => [] end = [s].
Proof.
  intros N [A B] ->. destruct (hget (txt "ID") m) as [v|] eqn:G.
  - destruct (A v) as (i & E & W); [apply hget_in in G; exact G|]. injection E as <-. inversion W; subst. reflexivity.
  - exfalso. assert (X : no_word m SID); [|apply B in X; discriminate X]. intros v W. apply in_hget in W; [|exact N]. change (system_word SID) with (txt "ID") in W. congruence.
Qed.
Lemma row_ids_app a b : row_ids (a ++ b) = row_ids a ++ row_ids b. Proof. apply flat_map_app. Qed.
Lemma row_ids_arrays l : row_ids (map JArray l) = []. Proof. induction l; [reflexivity|]. exact IHl. Qed.

Lemma rows_says objs vec : Forall2 (says_tmp says) objs vec -> Forall (fun m => NoDup (map fst m)) objs ->
  forall acc rows, NoDup (map fst acc ++ row_ids (map JMap objs)) ->
  mfold (fun result o => '(s, m) <- into_list_item_with_id iter o ; Ok (hset s m result)) vec acc = Ok rows ->
  exists rows', rows = acc ++ rows' /\ Forall2 (fun m e => says_id m (Some (IdStr (fst e))) /\ says_item m (snd e)) objs rows'.
Proof.
  induction 1 as [|m o objs vec S F IH]; intros K acc rows N E; cbn [mfold] in E.
  - apply Ok_inj in E as <-. exists []. rewrite app_nil_r. auto.
  - apply bind_ok in E as (acc' & E & E'). apply bind_ok in E as ([s c] & E & E2). apply Ok_inj in E2 as <-. inversion K as [|? ? Km K']; subst.
    pose proof (id_item_says _ _ _ S E) as [W Wc]. cbn [fst snd] in W, Wc.
    change (row_ids (map JMap (m :: objs))) with (match hget (txt "ID") m with Some (JString s) => [s] | _ => [] end ++ row_ids (map JMap objs)) in N.
    rewrite (row_id_written m s _ Km W eq_refl) in N. cbn [app] in N.
    rewrite hset_fresh in E' by (apply NoDup_remove_2 in N; intros X; apply N, in_or_app; auto).
    apply IH in E' as (rows' & -> & G); [|exact K'|rewrite map_app; cbn [map fst]; rewrite <- app_assoc; exact N].
    exists ((s, c) :: rows'). split; [rewrite <- app_assoc; reflexivity|]. constructor; auto.
Qed.

Lemma mut_items_says objs vec : Forall2 (says_tmp says) objs vec -> forall i items,
  mmap (fun e => into_mut_list_item iter (snd e) (fst e)) (enumerate_from i vec) = Ok items -> says_items i objs items.
Proof.
  induction 1 as [|m o objs vec S F IH]; intros i items E; cbn [enumerate_from mmap] in E.
  - apply Ok_inj in E as <-. constructor.
  - apply bind_ok in E as ([id c] & E & E1). apply bind_ok in E1 as (r & E1 & E2). apply Ok_inj in E2 as <-. cbn [fst snd] in E.
    unfold into_mut_list_item in E. apply bind_ok in E as (id' & Ei & E). destruct (_ && _) eqn:Y; [|discriminate E].
    apply bind_ok in E as (c' & E & E'). apply Ok_inj, pair_equal_spec in E' as [<- <-].
    constructor; [| |apply IH, E1].
    + pose proof S as (_ & Si & _). destruct (to_id o) as [[s|x]|]; [discriminate Ei| |]; apply Ok_inj in Ei as <-; auto.
    + eapply item_obj_says; eassumption.
Qed.

(* ------------------------------------------------------------------ *)
(** * Arrays *)

Section Step.
Variable arr : list jval -> var_type -> res rvalue.
Variable obj : list (name * jval) -> bool -> res tmp_obj.
Variable n : nat.
Hypothesis Harr : forall a vt r, (dl a < n)%nat -> tidy (JArray a) -> arr a vt = Ok r -> says vt (JArray a) r.
Hypothesis Hobj : forall m o, (dm m < n)%nat -> tidy (JMap m) -> obj m false = Ok o -> says_tmp says m o.

Lemma get_default_says x d : (dl x < S n)%nat -> tidy (JArray x) -> get_default iter obj x = Ok d -> exists m, x = [JMap m] /\ says_def m d.
Proof.
  intros D T E. unfold get_default in E. destruct x as [|[] [|]]; try discriminate E. apply bind_ok in E as (o & E & E'). exists m. split; [reflexivity|].
  eapply def_obj_says; [|exact E']. apply Hobj; [|eapply everywhere_array; [exact T|left; reflexivity]|exact E]. cbn in D. fold (dm m) in D. lia.
Qed.

Lemma attribute_says x k : (dl x < S n)%nat -> tidy (JArray x) -> list_attribute iter obj x = Ok k ->
  match k with
  | ADefault d => says_default x d
  | AOld ns => exists l, x = JString (txt "Old") :: l /\ writes_names l ns
  | ANextID i => 0 <= i < 2 ^ 64 /\ x = [JString (txt "NextID"); JInt i]
  end.
Proof.
  intros D T E. unfold list_attribute in E. destruct x as [|[] rest]; try discriminate E.
  - destruct (eqb_bytes s (txt "Default")) eqn:X1.
    + apply eqb_bytes_eq in X1 as ->. apply bind_ok in E as (d & E & E'). apply Ok_inj in E' as <-. unfold get_default in E. destruct rest as [|[] [|]]; try discriminate E.
      apply bind_ok in E as (o & E & E'). apply default_word. eapply def_obj_says; [|exact E'].
      apply Hobj; [|eapply everywhere_array; [exact T|right; left; reflexivity]|exact E]. cbn in D. fold (dm m) in D. lia.
    + destruct (eqb_bytes s (txt "Old")) eqn:X2.
      * apply eqb_bytes_eq in X2 as ->. apply bind_ok in E as (l & E & E'). apply Ok_inj in E' as <-. exists rest. split; [reflexivity|]. apply get_old_writes, E.
      * destruct (eqb_bytes s (txt "NextID")) eqn:X3; [|discriminate E]. apply eqb_bytes_eq in X3 as ->. destruct rest as [|[] [|]]; try discriminate E.
        apply Ok_inj in E as <-. destruct (everywhere_node _ _ T) as (_ & T2 & _). specialize (T2 _ eq_refl). unfold to_unsigned. rewrite Z.mod_small by lia. auto.
  - apply bind_ok in E as (d & E & E'). apply Ok_inj in E' as <-. apply get_default_says in E as (m' & -> & S); [apply default_bare, S|exact D|exact T].
Qed.

Lemma array_item_says t v p : (jdepth v < S n)%nat -> tidy v -> array_item arr t v = Ok p ->
  match t with
  | AtFloat => exists f, p = PFloat (Val f) /\ (writes_float v f \/ exists w, v = tagged_with "Float" [w] /\ writes_float w f)
  | _ => exists i, p = PInt (Val i) /\ v = JInt i
  end.
Proof.
  intros D T E. destruct v; try discriminate E.
  - destruct t; apply Ok_inj in E as <-; eexists; (split; [reflexivity|]); auto. left; constructor.
  - destruct t; try discriminate E. apply Ok_inj in E as <-. eexists. split; [reflexivity|]. left; constructor.
  - destruct t; try discriminate E. cbn in E. apply bind_ok in E as (rv & E & E'). apply Harr in E; [|cbn in D; fold (dl l) in D; lia|exact T].
    destruct rv; try discriminate E'. destruct p0; try discriminate E'. destruct q as [f| |]; try discriminate E'. apply Ok_inj in E' as <-. exists f. split; [reflexivity|]. right.
    inversion E as [vt' v p W| | | | | | | |]; subst. inversion W as [| | | |w f' Wf| | |w q N| | | | | | | |]; subst.
    + exists w. split; [reflexivity|exact Wf].
    + inversion N.
Qed.

Lemma get_array_says t l q : (dl l < S n)%nat -> (forall v, In v l -> tidy v) -> get_array arr l t = Ok q ->
  (exists v, l = [v] /\ nothing _ v q) \/ exists ps, q = Val ps /\ Forall2 (fun v p => array_item arr t v = Ok p) l ps.
Proof.
  intros D T E. unfold get_array in E.
  assert (G : (ps <- mmap (array_item arr t) l ; Ok (Val ps)) = Ok q -> exists ps, q = Val ps /\ Forall2 (fun v p => array_item arr t v = Ok p) l ps).
  { intros E'. apply bind_ok in E' as (ps & E1 & E2). apply Ok_inj in E2 as <-. exists ps. split; [reflexivity|]. apply mmap_forall2, E1. }
  destruct l as [|[] [|]]; auto; left; eexists; (split; [reflexivity|]); apply Ok_inj in E as <-; constructor.
Qed.

Lemma map_opt_forall2 {A B} (f : A -> option B) l r : map_opt f l = Some r -> Forall2 (fun a b => f a = Some b) l r.
Proof.
  revert r. induction l as [|a l IH]; intros r E; cbn in E; [injection E as <-; constructor|].
  destruct (f a) as [b|] eqn:F; [|discriminate E]. destruct (map_opt f l) as [r'|]; [|discriminate E]. injection E as <-. constructor; auto.
Qed.

(** arrays of numbers *)
Lemma number_array_says t l q p : (dl l < S n)%nat -> (forall v, In v l -> tidy v) -> get_array arr l t = Ok q -> to_param addr q t = Ok p ->
  match t with
  | AtInt => (exists v q, l = [v] /\ nothing _ v q /\ p = PIntArray q) \/ exists a is, l = map JInt is /\ p = PIntArray (Val (a, is))
  | AtFloat => (exists v q, l = [v] /\ nothing _ v q /\ p = PFloatArray q) \/ exists fs, p = PFloatArray (Val fs) /\
      Forall2 (fun v f => writes_float v f \/ exists w, v = tagged_with "Float" [w] /\ writes_float w f) l fs
  | AtBinary => (exists v q, l = [v] /\ nothing _ v q /\ p = PBinary q) \/ exists a bs, l = map JInt bs /\ p = PBinary (Val (a, bs)) /\ Forall (fun b => 0 <= b < 256) bs
  end.
Proof.
  intros D T E E'. destruct (get_array_says _ _ _ D T E) as [(v & -> & N)|(ps & -> & F)].
  - destruct t; inversion N; subst; cbn in E'; apply Ok_inj in E' as <-; left; eexists; eexists; (split; [reflexivity|]); (split; [|reflexivity]); constructor.
  - assert (F' : Forall2 (fun v p => match t with
      | AtFloat => exists f, p = PFloat (Val f) /\ (writes_float v f \/ exists w, v = tagged_with "Float" [w] /\ writes_float w f)
      | _ => exists i, p = PInt (Val i) /\ v = JInt i end) l ps).
    { eapply forall2_impl_in; [exact F|]. cbn. intros v x Iv _ Ex. eapply array_item_says; [|apply T, Iv|exact Ex]. apply dl_in in Iv. lia. }
    clear F E D T. destruct t; cbn in E'; right.
    + destruct (to_floats ps) as [fs|] eqn:X; [|discriminate E']. cbn in E'. apply Ok_inj in E' as <-. exists fs. split; [reflexivity|].
      apply map_opt_forall2 in X. eapply forall2_impl_in; [eapply forall2_chain; [exact F'|exact X]|]. cbn. intros v f _ _ (x & (f' & -> & W) & Y). injection Y as <-. exact W.
    + destruct (to_ints ps) as [is|] eqn:X; [|discriminate E']. cbn in E'. apply Ok_inj in E' as <-. exists (addr is), is. split; [|reflexivity].
      apply map_opt_forall2 in X. clear -F' X. revert is X. induction F' as [|v x l ps (i & -> & ->) F IH]; intros is X; inversion X as [|? ? ? ? Y X']; subst; [reflexivity|].
      injection Y as <-. cbn. f_equal. auto.
    + destruct (to_u8s ps) as [is|] eqn:X; [|discriminate E']. cbn in E'. apply Ok_inj in E' as <-. exists (addr is), is.
      apply map_opt_forall2 in X. clear -F' X.
      assert (G : l = map JInt is /\ Forall (fun b => 0 <= b < 256) is).
      { revert is X. induction F' as [|v x l ps (i & -> & ->) F IH]; intros is X; inversion X as [|? ? ? ? Y X']; subst; [auto|].
        destruct ((0 <=? i) && (i <? 256)) eqn:B; [|discriminate Y]. injection Y as <-. destruct (IH _ X') as [-> G]. split; [reflexivity|]. constructor; [lia|exact G]. }
      destruct G as [-> G]. auto.
Qed.

Lemma gat_tag a g : get_array_type a = g -> g <> GNotDefined -> g <> GNoTagInt -> exists s rest, a = JString s :: rest.
Proof. intros <- A B. destruct a as [|[] rest]; cbn in *; try congruence. eauto. Qed.

Definition tag_of (g : gat) : string :=
  match g with
  | GAT AtInt => "IntArray" | GAT AtFloat => "FloatArray" | GAT AtBinary => "Binary"
  | GInt => "Int" | GFloat => "Float" | GStr => "Str" | GBool => "Bool"
  | GCList => "CList" | GTable => "Table" | GMList => "MList" | GCil => "Cil" | GMil => "Mil" | GCilDef => "CilDef" | GMilDef => "MilDef"
  | GInnerMutUndefined => "__InnerMutUndefined"
  | GNoTagInt | GNotDefined => ""
  end.
Lemma array_type_tag a : match get_array_type a with
  | GNotDefined => True
  | GNoTagInt => exists i l, a = JInt i :: l
  | g => exists l, a = JString (txt (tag_of g)) :: l
  end.
Proof.
  destruct a as [|[] l]; cbn [get_array_type]; try exact I; eauto.
  repeat match goal with |- context [if eqb_bytes ?x ?y then _ else _] => let E := fresh in destruct (eqb_bytes x y) eqn:E; [apply eqb_bytes_eq in E; subst s; eexists; reflexivity|clear E] end. exact I.
Qed.

Lemma null_says g l vt r : (match g with GFloat | GInt | GStr | GBool => True | _ => False end) -> array_null_or_undefined l g vt = Ok r ->
  says vt (tagged_with (tag_of g) l) r.
Proof.
  intros G E. unfold array_null_or_undefined in E. destruct l as [|[] [|]]; try discriminate E.
  all: destruct g; try discriminate E; try (exfalso; exact G); apply Ok_inj in E as <-; apply says_param; cbn [tag_of].
  all: first [apply writes_no_float; first [apply nothing_null|apply nothing_undefined]|apply writes_no_int; first [apply nothing_null|apply nothing_undefined]
    |apply writes_no_string; first [apply nothing_null|apply nothing_undefined]|apply writes_no_bool; first [apply nothing_null|apply nothing_undefined]
    |apply writes_tagged_float; constructor].
Qed.

(** the kinds of lists *)
Lemma parts_says a t : (dl a < S n)%nat -> (forall v, In v a -> tidy v) -> json_list_to_rust iter obj a = Ok t ->
  exists attrs objs, a = map JArray attrs ++ map JMap objs /\ Forall2 (says_tmp says) objs (tl_vec t) /\
    exists attrs', Permutation attrs attrs' /\ Forall2 (fun x k => match k with
      | ADefault d => says_default x d
      | AOld ns => exists l, x = JString (txt "Old") :: l /\ writes_names l ns
      | ANextID i => 0 <= i < 2 ^ 64 /\ x = [JString (txt "NextID"); JInt i]
      end) attrs' (kinds_of t).
Proof.
  intros D T E. apply list_parts in E as (attrs & objs & -> & F & attrs' & P & G). exists attrs, objs. split; [reflexivity|]. split.
  - eapply forall2_impl_in; [exact F|]. cbn. intros m o Im _ Eo. assert (I : In (JMap m) (map JArray attrs ++ map JMap objs)) by (apply in_or_app; right; apply in_map, Im).
    apply Hobj; [|apply T, I|exact Eo]. apply dl_in in I. cbn [jdepth] in I. fold (dm m) in I. lia.
  - exists attrs'. split; [exact P|]. eapply forall2_impl_in; [exact G|]. cbn. intros x k Ix _ Ek.
    assert (I : In (JArray x) (map JArray attrs ++ map JMap objs)) by (apply in_or_app; left; apply in_map; eapply Permutation_in; [apply Permutation_sym, P|exact Ix]).
    apply attribute_says; [|apply T, I|exact Ek]. apply dl_in in I. cbn [jdepth] in I. fold (dl x) in I. lia.
Qed.

Lemma only_default_says t d l : (dl l < S n)%nat -> (forall v, In v l -> tidy v) -> json_list_to_rust iter obj l = Ok t -> only_default t = Ok d ->
  exists x, l = [JArray x] /\ says_default x d.
Proof.
  intros D T Et E. apply parts_says in Et as (attrs & objs & -> & F & attrs' & P & G); [|exact D|exact T].
  unfold only_default in E. unfold kinds_of in G. destruct (tl_old t); [discriminate E|]. destruct (tl_default t) as [d'|]; [|discriminate E].
  destruct (tl_next t); [discriminate E|]. cbn [is_some orb] in E. destruct (tl_vec t); [|discriminate E]. apply Ok_inj in E as ->.
  inversion F; subst. cbn in G. inversion G as [|x ? l ? W G']; subst. inversion G'; subst. apply Permutation_sym, Permutation_length_1_inv in P as ->.
  exists x. auto.
Qed.

Lemma json_array_says a vt r : (dl a < S n)%nat -> tidy (JArray a) -> json_array_to_rust addr iter arr obj a vt = Ok r -> says vt (JArray a) r.
Proof.
  intros D T E. assert (Dt : (dl (tl a) < S n)%nat) by (pose proof (dl_tl a); lia).
  assert (Tv : forall v, In v a -> tidy v) by (intros v Iv; eapply everywhere_array; [exact T|exact Iv]).
  assert (Tt : forall v, In v (tl a) -> tidy v) by (intros v Iv; apply Tv; destruct a; [destruct Iv|right; exact Iv]).
  destruct (everywhere_node _ _ T) as (T1 & _ & T3).
  assert (Cl : forall l t, json_list_to_rust iter obj l = Ok t -> l = tl a -> exists attrs objs, l = map JArray attrs ++ map JMap objs /\ Forall2 (says_tmp says) objs (tl_vec t) /\
    exists attrs', Permutation attrs attrs' /\ Forall2 (fun x k => match k with
      | ADefault d => says_default x d
      | AOld ns => exists l, x = JString (txt "Old") :: l /\ writes_names l ns
      | ANextID i => 0 <= i < 2 ^ 64 /\ x = [JString (txt "NextID"); JInt i]
      end) attrs' (kinds_of t)) by (intros l t El ->; apply parts_says; assumption).
  unfold json_array_to_rust in E. pose proof (array_type_tag a) as A. destruct (get_array_type a) eqn:G; try discriminate E.
  - (* arrays of numbers *)
    assert (X : exists l, a = JString (txt (tag_of (GAT t))) :: l) by (rewrite <- G in A |- *; destruct t; rewrite G in A |- *; exact A). clear A. destruct X as [l ->].
    cbn [tl] in *. apply bind_ok in E as (q & E & E1). apply bind_ok in E1 as (p & E1 & E2). apply Ok_inj in E2 as <-. apply says_param.
    pose proof (number_array_says _ _ _ _ Dt Tt E E1) as N. destruct t; cbn [tag_of].
    + destruct N as [(v & q' & -> & N & ->)|(fs & -> & N)]; [apply writes_no_floats, N|apply writes_floats, N].
    + destruct N as [(v & q' & -> & N & ->)|(x & is & -> & ->)]; [apply writes_no_ints, N|apply writes_tagged_ints].
    + destruct N as [(v & q' & -> & N & ->)|(x & is & -> & -> & B)]; [apply writes_no_bytes, N|apply writes_bytes, B].
  - (* CList *)
    destruct A as [l ->]. cbn [tl tag_of] in *. destruct vt; try discriminate E; [|apply bind_ok in E as (t & _ & E); discriminate E].
    apply bind_ok in E as (t & Et & E). apply Cl in Et as (attrs & objs & -> & F & attrs' & P & K); [|reflexivity].
    unfold into_const_list in E. unfold kinds_of in K. destruct (tl_old t); [discriminate E|]. destruct (tl_default t) as [d|]; [|discriminate E]. destruct (tl_next t); [discriminate E|].
    cbn [is_some] in E. apply bind_ok in E as (items & Ei & E). apply Ok_inj in E as <-. cbn in K. inversion K as [|x ? l0 ? W K']; subst. inversion K'; subst.
    apply Permutation_sym, Permutation_length_1_inv in P as ->. apply says_clist; [exact W|]. eapply list_items_says; eassumption.
  - (* Table *)
    destruct A as [l ->]. cbn [tl tag_of] in *. destruct vt; try discriminate E; [|apply bind_ok in E as (t & _ & E); discriminate E].
    apply bind_ok in E as (t & Et & E). apply Cl in Et as (attrs & objs & -> & F & attrs' & P & K); [|reflexivity].
    unfold into_const_data in E. unfold kinds_of in K. destruct (tl_default t) as [d|]; [|discriminate E]. destruct (tl_next t); [discriminate E|].
    cbn [is_some] in E. apply bind_ok in E as (rows & Ei & E). apply Ok_inj in E as <-. cbn [olist app] in K. rewrite app_nil_r in K. inversion K as [|x ? l0 ? W K']; subst.
    assert (Old : exists old, map JArray l0 = old /\ writes_old old (unwrap_or (tl_old t) [])).
    { destruct (tl_old t) as [ns|]; cbn in K'.
      - inversion K' as [|y ? ? ? Wy K'']; subst. inversion K''; subst. destruct Wy as (l & -> & Wy). eexists. split; [reflexivity|]. apply old_written, Wy.
      - inversion K'; subst. eexists. split; [reflexivity|]. constructor. }
    destruct Old as (old & <- & Wo).
    eapply says_table with (x := x); [apply (Permutation_map JArray) in P; exact P|exact W|exact Wo|].
    unfold to_data_items in Ei. eapply rows_says in Ei as (rows' & -> & R); [exact R|exact F| |].
    + apply Forall_forall. intros m Im. assert (I : In (JMap m) (map JArray attrs ++ map JMap objs)) by (apply in_or_app; right; apply in_map, Im).
      apply Tt in I. destruct (everywhere_node _ _ I) as (X & _). exact X.
    + change (JString (txt "Table") :: map JArray attrs ++ map JMap objs) with ([JString (txt "Table")] ++ map JArray attrs ++ map JMap objs) in T1.
      rewrite !row_ids_app, row_ids_arrays in T1. exact T1.
  - (* MList *)
    destruct A as [l ->]. cbn [tl tag_of] in *.
    assert (X : exists u t, writes_undefiable vt u /\ json_list_to_rust iter obj l = Ok t /\ into_mut_list iter t u = Ok r).
    { destruct vt; try discriminate E; apply bind_ok in E as (t & Et & E); eexists; exists t; (split; [constructor|]); auto. }
    destruct X as (u & t & U & Et & E'). clear E. apply Cl in Et as (attrs & objs & -> & F & attrs' & P & K); [|reflexivity].
    unfold into_mut_list in E'. unfold kinds_of in K. destruct (tl_old t); [discriminate E'|]. destruct (tl_default t) as [d|]; [|discriminate E'].
    cbn [is_some] in E'. apply bind_ok in E' as (items & Ei & E). apply Ok_inj in E as <-. unfold to_mut_list_items in Ei. apply bind_ok in Ei as (l & Ei & E). apply Ok_inj in E as <-.
    cbn [olist app] in K. inversion K as [|x ? l0 ? W K']; subst.
    eapply says_mlist with (x := x) (next := map JArray l0); [exact U|apply (Permutation_map JArray) in P; exact P|exact W| |eapply mut_items_says; eassumption].
    destruct (tl_next t) as [i|]; cbn in K'.
    + inversion K' as [|y ? ? ? Wy K'']; subst. inversion K''; subst. destruct Wy as (Wy & ->). apply next_written, Wy.
    + inversion K'; subst. cbn. unfold zlen. rewrite <- (forall2_length _ _ _ F). apply next_counted.
  - (* Cil *)
    destruct A as [l ->]. cbn [tl tag_of] in *. destruct vt; try discriminate E; [|apply bind_ok in E as (t & _ & E); discriminate E].
    apply bind_ok in E as (t & Et & E). apply Cl in Et as (attrs & objs & -> & F & attrs' & P & K); [|reflexivity].
    unfold into_inner_list in E. unfold kinds_of in K. destruct (tl_old t); [discriminate E|]. destruct (tl_default t) as [d|]; [discriminate E|]. destruct (tl_next t); [discriminate E|].
    cbn [is_some orb] in E. apply bind_ok in E as (items & Ei & E). apply Ok_inj in E as <-. cbn in K. inversion K; subst. apply Permutation_sym, Permutation_nil in P as ->. cbn [map app].
    apply says_cil. eapply list_items_says; eassumption.
  - (* Mil *)
    destruct A as [l ->]. cbn [tl tag_of] in *. destruct vt; try discriminate E; [|apply bind_ok in E as (t & _ & E); discriminate E].
    apply bind_ok in E as (t & Et & E). apply Cl in Et as (attrs & objs & -> & F & attrs' & P & K); [|reflexivity].
    unfold into_mut_inner_list in E. unfold kinds_of in K. destruct (tl_old t); [discriminate E|]. destruct (tl_default t) as [d|]; [discriminate E|].
    cbn [is_some orb] in E. apply bind_ok in E as (items & Ei & E). apply Ok_inj in E as <-. unfold to_mut_list_items in Ei. apply bind_ok in Ei as (l & Ei & E). apply Ok_inj in E as <-.
    apply says_mil; [|eapply mut_items_says; eassumption]. cbn [olist app] in K. destruct (tl_next t) as [i|]; cbn in K.
    + inversion K as [|y ? ? ? Wy K'']; subst. inversion K''; subst. destruct Wy as (Wy & ->). apply Permutation_sym, Permutation_length_1_inv in P as ->. apply next_written, Wy.
    + inversion K; subst. apply Permutation_sym, Permutation_nil in P as ->. cbn. unfold zlen. rewrite <- (forall2_length _ _ _ F). apply next_counted.
  - (* CilDef *)
    destruct A as [l ->]. cbn [tl tag_of] in *. destruct vt; try discriminate E; [|apply bind_ok in E as (t & _ & E); discriminate E].
    apply bind_ok in E as (t & Et & E). unfold into_inner_def in E. apply bind_ok in E as (d & Ed & E). apply Ok_inj in E as <-.
    apply (only_default_says t d l Dt Tt Et) in Ed as (x & -> & W). apply says_cil_def, W.
  - (* MilDef *)
    destruct A as [l ->]. cbn [tl tag_of] in *.
    assert (X : exists u t, writes_undefiable vt u /\ json_list_to_rust iter obj l = Ok t /\ into_inner_mut_def t u = Ok r).
    { destruct vt; try discriminate E; apply bind_ok in E as (t & Et & E); eexists; exists t; (split; [constructor|]); auto. }
    destruct X as (u & t & U & Et & E'). clear E. unfold into_inner_mut_def in E'. apply bind_ok in E' as (d & Ed & E). apply Ok_inj in E as <-.
    apply (only_default_says t d l Dt Tt Et) in Ed as (x & -> & W). apply says_mil_def; assumption.
  - destruct A as [l ->]. apply null_says with (g := GInt); [exact I|exact E].
  - (* integers without a tag *)
    destruct A as (i & l & ->). apply bind_ok in E as (q & E & E1). destruct (to_param addr q AtInt) as [p| |] eqn:E2; try discriminate E1. apply Ok_inj in E1 as <-.
    pose proof (number_array_says AtInt _ _ _ D Tv E E2) as N. cbn in N. apply says_param. destruct N as [(v & q' & X & N & ->)|(x & is & X & ->)].
    + injection X as <- ->. inversion N.
    + rewrite X. apply writes_ints. intros ->. discriminate X.
  - destruct A as [l ->]. apply null_says with (g := GFloat); [exact I|exact E].
  - destruct A as [l ->]. apply null_says with (g := GStr); [exact I|exact E].
  - destruct A as [l ->]. apply null_says with (g := GBool); [exact I|exact E].
  - destruct A as [l ->]. apply Ok_inj in E as <-. rewrite (T3 _ eq_refl). apply says_mil_undefined.
Qed.

Lemma json_item_says v vt r : (jdepth v < S n)%nat -> tidy v -> json_item_to_rust addr arr vt v = Ok r -> says vt v r.
Proof.
  intros D T E. destruct v; try discriminate E; cbn in E.
  1-4: apply Ok_inj in E as <-; apply says_param; constructor.
  apply Harr; [|exact T|exact E]. cbn in D. fold (dl l) in D. lia.
Qed.
End Step.

Theorem convert_says n :
  (forall a vt r, (dl a < n)%nat -> tidy (JArray a) -> arr_of addr iter n a vt = Ok r -> says vt (JArray a) r) /\
  (forall m o, (dm m < n)%nat -> tidy (JMap m) -> obj_of addr iter n m false = Ok o -> says_tmp says m o) /\
  (forall m o, (dm m < n)%nat -> tidy (JMap m) -> obj_of addr iter n m true = Ok o -> says_tmp ref_value m o).
Proof.
  induction n as [|n (IA & IO & IR)]; [split; [|split]; intros; lia|].
  unfold arr_of, obj_of in *. cbn [convert]. destruct (convert addr iter n) as [arr obj]. cbn [fst snd] in *. split; [|split].
  - intros a vt r D T E. eapply json_array_says; eassumption.
  - intros m o D T E. eapply json_obj_says; [exact It|apply everywhere_node, T| | |exact E].
    + cbn. intros k v vt r Iv Er. eapply json_item_says; [exact IA| |eapply everywhere_map; [exact T|exact Iv]|exact Er]. apply dm_in in Iv. lia.
    + intros k m' o' Im Eo. apply IR; [|eapply everywhere_map; [exact T|exact Im]|exact Eo]. apply dm_in in Im. cbn [jdepth] in Im. fold (dm m') in Im. lia.
  - intros m o D T E. eapply json_obj_says; [exact It|apply everywhere_node, T| | |exact E].
    + cbn. intros k v vt r Iv Er. eapply ref_value_says, Er.
    + intros k m' o' Im Eo. apply IR; [|eapply everywhere_map; [exact T|exact Im]|exact Eo]. apply dm_in in Im. cbn [jdepth] in Im. fold (dm m') in Im. lia.
Qed.

Theorem item_str_says v vt r : tidy v -> json_item_str_to_rust addr iter v vt = Ok r -> says vt v r.
Proof.
  intros T E. unfold json_item_str_to_rust in E. destruct v; try (eapply (json_item_says (arr_of addr iter 0) 0); [intros; lia|cbn; lia|exact T|exact E]).
  - eapply (json_item_says _ _ (proj1 (convert_says (jdepth (JArray l))))); [|exact T|exact E]. lia.
  - discriminate E.
Qed.

End Conversion.
