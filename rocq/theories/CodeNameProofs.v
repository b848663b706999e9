(** Names of members and references of every document that is loaded are plain (C66). *)
From Coq Require Import String.
From Verif Require Import Base StringCompactionModel StringCompactionProofs DocModel DiffSpec DiffProofs ArchiveModel JsonModel JsonSpec JsonNameProofs JsonProofs ValidModel IntfModel GenModel GenSpec CodeModel CodeSpec.

(** a result, if there is one, has the property *)
Definition when {A} (P : A -> Prop) (r : res A) : Prop := match r with Ok a => P a | _ => True end.

Lemma when_use {A} (P : A -> Prop) r a : when P r -> r = Ok a -> P a.
Proof. intros H ->. exact H. Qed.
Lemma when_of {A} (P : A -> Prop) r : (forall a, r = Ok a -> P a) -> when P r.
Proof. intros H. destruct r; [exact (H _ eq_refl)| |]; exact I. Qed.
Lemma when_ok {A} (P : A -> Prop) a : P a -> when P (Ok a).
Proof. intros H. exact H. Qed.
Lemma when_err {A} (P : A -> Prop) : when P Err.
Proof. exact I. Qed.
Lemma when_panic {A} (P : A -> Prop) : when P Panic.
Proof. exact I. Qed.
Lemma when_bind {A B} (P : A -> Prop) (Q : B -> Prop) r (f : A -> res B) : when P r -> (forall a, P a -> when Q (f a)) -> when Q (bind r f).
Proof. destruct r; cbn; auto. Qed.
Lemma when_any {A} (r : res A) : when (fun _ => True) r.
Proof. destruct r; exact I. Qed.
Lemma when_mfold {A B} (P : A -> Prop) (f : A -> B -> res A) l : (forall a b, In b l -> P a -> when P (f a b)) -> forall a, P a -> when P (mfold f l a).
Proof.
  induction l as [|b l IH]; intros H a Ha; cbn [mfold]; [apply when_ok; exact Ha|]. eapply when_bind; [apply H; [left; reflexivity|exact Ha]|].
  intros a' Ha'. apply IH; [|exact Ha']. intros; apply H; [right|]; assumption.
Qed.
Lemma when_mmap {A B} (P : B -> Prop) (f : A -> res B) l : (forall a, In a l -> when P (f a)) -> when (Forall P) (mmap f l).
Proof.
  induction l as [|b l IH]; intros H; cbn [mmap]; [apply when_ok; constructor|]. eapply when_bind; [apply H; left; reflexivity|]. intros x Hx.
  eapply when_bind; [apply IH; intros; apply H; right; assumption|]. intros r Hr. apply when_ok. constructor; assumption.
Qed.

Inductive well_named : def -> Prop :=
| names_ok l : (forall key v, In (key, v) (ld_members l) -> plain_name key) -> (forall key v, In (key, v) (ld_refs l) -> plain_name key) ->
    (forall key id d, In (key, (id, DCil d)) (ld_members l) -> well_named d) ->
    (forall key id d u, In (key, (id, DMil d u)) (ld_members l) -> well_named d) ->
    well_named (Def l).

Definition rv_named (v : rvalue) : Prop :=
  match v with
  | VaParam _ _ | VaCil _ | VaMil _ => True
  | VaTable d _ _ | VaCList d _ | VaMList d _ _ | VaCilDef d | VaMilDef d _ => well_named d
  end.
Definition rt_named (v : rootvalue) : Prop :=
  match v with WParam _ _ => True | WTable d _ _ | WCList d _ | WMList d _ => well_named d end.
Definition tmp_named (o : tmp_obj) : Prop :=
  (forall k i v, In (k, (i, v)) (to_default o) -> plain_name k /\ rv_named v) /\ (forall k v, In (k, v) (tr_map (to_refs o)) -> plain_name k).
Definition tl_named (t : tmp_list) : Prop := forall d, tl_default t = Some d -> well_named d.
Definition ro_named (root : hmap (Z * rootvalue)) : Prop := forall k i v, In (k, (i, v)) root -> plain_name k /\ rt_named v.

Lemma enumerate_in {A} (l : list A) : forall i e, In e (enumerate_from i l) -> In (snd e) l.
Proof.
  induction l as [|x l IH]; intros i e H; [destruct H|]. cbn [enumerate_from] in H. destruct H as [<-|H]; [left; reflexivity|]. right. exact (IH _ _ H).
Qed.

Section Conversion.
Variable addr : list Z -> Z.
Variable iter : forall A, hmap A -> hmap A.
Hypothesis It : iterates iter.

Lemma list_def_named o : tmp_named o -> when well_named (into_list_def_obj iter o).
Proof.
  intros [Hv Hr]. unfold into_list_def_obj. destruct (to_id o); [apply when_err|]. unfold to_list_def_val_map.
  eapply when_bind with (P := fun ms => forall k i v, In (k, (i, v)) ms -> plain_name k /\ match v with DParam _ _ => True | DCil d => well_named d | DMil d _ => well_named d end).
  - apply when_mfold; [|intros k i v []]. intros ms [idx [k [i v]]] I P. apply enumerate_in in I. cbn [snd] in I. apply (iter_in iter It) in I. apply Hv in I as [N V].
    eapply when_bind with (P := fun v => match v with DParam _ _ => True | DCil d => well_named d | DMil d _ => well_named d end).
    + destruct v; cbn [into_list_def_value]; try apply when_err; apply when_ok; exact V.
    + intros d D. apply when_ok. intros k' i' v' I'. apply in_hset in I' as [[-> I']|I']; [|exact (P _ _ _ I')]. apply pair_equal_spec in I' as [-> ->]. split; assumption.
  - intros ms P. apply when_ok. constructor; cbn [ld_members ld_refs].
    + intros key [i v] I. apply (P _ _ _ I).
    + exact Hr.
    + intros key id d I. apply (proj2 (P _ _ _ I)).
    + intros key id d u I. apply (proj2 (P _ _ _ I)).
Qed.

Lemma lists_named t : tl_named t ->
  when rv_named (into_const_list iter t) /\ when rv_named (into_inner_list iter t) /\ when rv_named (into_const_data iter t) /\
  (forall u, when rv_named (into_mut_list iter t u)) /\ when rv_named (into_mut_inner_list iter t) /\
  when rv_named (into_inner_def t) /\ (forall u, when rv_named (into_inner_mut_def t u)).
Proof.
  intros Hd. unfold into_const_list, into_inner_list, into_const_data, into_mut_list, into_mut_inner_list, into_inner_def, into_inner_mut_def, only_default.
  split; [|split; [|split; [|split; [|split; [|split]]]]]; try intros u.
  all: repeat match goal with |- context [if ?b then _ else _] => destruct b; try apply when_err end.
  all: try (destruct (tl_default t) as [d|] eqn:E; [|apply when_err]; pose proof (Hd d E) as D); try clear E.
  all: repeat match goal with |- context [if ?b then _ else _] => destruct b; try apply when_err end.
  all: eapply when_bind; [first [apply (when_ok (fun x => x = d)); reflexivity|apply when_any]|].
  all: intros x X; apply when_ok; cbn [rv_named]; first [exact D|exact Logic.I|rewrite X; exact D].
Qed.

Section Step.
Variable arr : list jval -> var_type -> res rvalue.
Variable obj : list (name * jval) -> bool -> res tmp_obj.
Hypothesis Harr : forall a vt, when rv_named (arr a vt).
Hypothesis Hobj : forall m b, when tmp_named (obj m b).

Lemma get_default_named a : when well_named (get_default iter obj a).
Proof.
  unfold get_default. destruct a as [|[] [|]]; try apply when_err. eapply when_bind; [apply Hobj|]. apply list_def_named.
Qed.

Lemma json_list_named a : forall t, tl_named t -> when tl_named (json_list_loop iter obj t a).
Proof.
  induction a as [|x a IH]; intros t W; cbn [json_list_loop]; [apply when_ok; exact W|]. destruct x; try apply when_err.
  - eapply when_bind with (P := fun at' => match at' with ADefault d => well_named d | _ => True end).
    + unfold list_attribute. destruct l as [|[] rest]; try apply when_err.
      * destruct (eqb_bytes s (txt "Default")); [eapply when_bind; [apply get_default_named|intros d D; apply when_ok; exact D]|].
        destruct (eqb_bytes s (txt "Old")); [eapply when_bind; [apply when_any|intros x _; apply when_ok; exact Logic.I]|].
        destruct (eqb_bytes s (txt "NextID")); [|apply when_err]. destruct rest as [|[] [|]]; try apply when_err; apply when_ok; exact Logic.I.
      * eapply when_bind; [apply get_default_named|intros d D; apply when_ok; exact D].
    + intros at' Hat. eapply when_bind with (P := tl_named); [|exact IH]. destruct at'.
      * destruct (is_some (tl_default t)); [apply when_err|]. apply when_ok. intros d' E. cbn in E. apply Some_inj in E as <-. exact Hat.
      * destruct (is_some (tl_old t)); [apply when_err|]. apply when_ok. exact W.
      * destruct (is_some (tl_next t)); [apply when_err|]. apply when_ok. exact W.
  - eapply when_bind; [apply when_any|]. intros items _. apply when_ok. exact W.
Qed.

Lemma json_array_named a vt : when rv_named (json_array_to_rust addr iter arr obj a vt).
Proof.
  assert (W0 : when tl_named (json_list_to_rust iter obj (tl a))). { apply json_list_named. intros d E. discriminate E. }
  unfold json_array_to_rust. destruct (get_array_type a) eqn:G; try apply when_err.
  1:{ eapply when_bind; [apply when_any|]. intros q _. eapply when_bind; [apply when_any|]. intros p _. apply when_ok. exact Logic.I. }
  8:{ unfold array_null_or_undefined. destruct (tl a) as [|[] [|]]; try apply when_err; apply when_ok; exact Logic.I. }
  8:{ eapply when_bind; [apply when_any|]. intros q _. destruct (to_param addr q AtInt); [apply when_ok; exact Logic.I|apply when_panic|apply when_panic]. }
  8-10: unfold array_null_or_undefined; destruct (tl a) as [|[] [|]]; try apply when_err; apply when_ok; exact Logic.I.
  8: apply when_ok; exact Logic.I.
  all: destruct vt; try apply when_err; (eapply when_bind; [exact W0|]); intros t Wt; destruct (lists_named t Wt) as (L1 & L2 & L3 & L4 & L5 & L6 & L7); auto; apply when_err.
Qed.

Lemma get_ref_named m : when (fun r => forall k v, In (k, v) (tr_map r) -> plain_name k) (get_ref iter obj m).
Proof.
  unfold get_ref. eapply when_bind; [apply Hobj|]. intros o [Hv _]. destruct (_ || _); [apply when_err|].
  eapply when_bind with (P := fun r : hmap (Z * (qv (list Z) * var_type)) => forall k v, In (k, v) r -> plain_name k); [|intros r R; apply when_ok; exact R].
  apply when_mfold; [|intros k v []]. intros r [idx [k [i v]]] I R. apply enumerate_in in I. cbn [snd] in I. apply (iter_in iter It) in I. apply Hv in I as [N _].
  assert (Set_ : forall x, when (fun r : hmap (Z * (qv (list Z) * var_type)) => forall k v, In (k, v) r -> plain_name k) (Ok (hset k x r))).
  { intros x. apply when_ok. intros k' v' I'. apply in_hset in I' as [[-> _]|I']; [exact N|exact (R _ _ I')]. }
  destruct v; try apply when_err. destruct p; try apply when_err. destruct q; try apply Set_. destruct (_ && _); [apply when_err|apply Set_].
Qed.

Lemma obj_step_named is_ref st e : tmp_named (fst st) -> when (fun st => tmp_named (fst st)) (obj_step addr iter arr obj is_ref st e).
Proof.
  destruct st as [r c], e as [k v]. intros [Hv Hr]. cbn [fst] in *. unfold obj_step. destruct (json_name k) as [[nm vt|sn]|] eqn:J; [| |apply when_err].
  - apply json_name_plain in J as [Pn _]. eapply when_bind with (P := rv_named).
    + destruct is_ref; destruct v; try apply when_err; try (apply when_ok; exact Logic.I). apply Harr.
    + intros x Hx. apply when_ok. cbn [fst]. split; [|exact Hr]. cbn [to_default]. intros k' i' v' I'. apply in_hset in I' as [[-> E]|I']; [|exact (Hv _ _ _ I')].
      apply pair_equal_spec in E as [-> ->]. split; assumption.
  - destruct sn.
    + destruct v; try apply when_err. eapply when_bind; [apply when_any|]. intros old _. apply when_ok. split; assumption.
    + destruct (is_some (to_id r)); [apply when_err|]. destruct (get_id v); [|apply when_err]. apply when_ok. split; assumption.
    + destruct (negb _); [apply when_err|]. destruct v; try apply when_err. eapply when_bind; [apply get_ref_named|]. intros rf Hrf. apply when_ok. split; [exact Hv|exact Hrf].
    + destruct (negb _); [apply when_err|]. destruct v; try apply when_err. eapply when_bind; [apply get_ref_named|]. intros rf Hrf. apply when_ok. split; [exact Hv|exact Hrf].
Qed.

Lemma json_obj_named m b : when tmp_named (json_obj_to_rust addr iter arr obj m b).
Proof.
  unfold json_obj_to_rust. eapply when_bind.
  - apply (when_mfold (fun st => tmp_named (fst st))); [|split; [intros k i v []|intros k v []]]. intros st e _ W. apply obj_step_named. exact W.
  - intros [r c] W. apply when_ok. exact W.
Qed.
End Step.

Lemma convert_named n : (forall a vt, when rv_named (arr_of addr iter n a vt)) /\ (forall m b, when tmp_named (obj_of addr iter n m b)).
Proof.
  induction n as [|n [IA IO]]; [split; intros; apply when_panic|]. unfold arr_of, obj_of in *. cbn [convert]. destruct (convert addr iter n) as [arr obj]. cbn [fst snd] in *.
  split; intros; [apply json_array_named; assumption|apply json_obj_named; assumption].
Qed.

Lemma item_str_named v vt : when rv_named (json_item_str_to_rust addr iter v vt).
Proof.
  unfold json_item_str_to_rust. destruct v; cbn [json_item_to_rust]; try apply when_err; try (apply when_ok; exact Logic.I). apply convert_named.
Qed.

Lemma into_root_named v : rv_named v -> when (fun x => rt_named (fst x)) (into_root_value v).
Proof. destruct v; intros H; exact H || exact Logic.I. Qed.

Lemma new_root_named d s o : ro_named d -> when (fun r => ro_named (ro_default r)) (new_root iter d s o).
Proof. intros H. unfold new_root. eapply when_bind; [apply when_any|]. intros m _. apply when_ok. exact H. Qed.

Lemma json_root_named v : when (fun r => ro_named (ro_default r)) (json_root_to_rust addr iter v).
Proof.
  unfold json_root_to_rust. destruct v as [| | | | | | |m]; try apply when_err. eapply when_bind; [apply convert_named|]. intros o [Hv _].
  unfold into_root_obj. destruct (_ || _); [apply when_err|]. eapply when_bind with (P := fun x => ro_named (fst x)).
  - unfold to_root_hash. apply when_mfold; [|intros k i v []]. intros [r s] [k [i v]] I R. apply (iter_in iter It) in I. apply Hv in I as [N V].
    eapply when_bind; [apply into_root_named; exact V|]. intros [w o'] W. apply when_ok. cbn [fst] in *. intros k' i' v' I'.
    apply in_hset in I' as [[-> E]|I']; [|exact (R _ _ _ I')]. apply pair_equal_spec in E as [-> ->]. split; assumption.
  - intros [d s] D. apply new_root_named. exact D.
Qed.

Variable parse : list Z -> option jval.

Lemma file_named path content : when (fun it => match it with ARoot r => ro_named (ro_default r) | AItem n v _ => plain_name n /\ rt_named v end) (json_file_to_rust addr iter parse path content).
Proof.
  unfold json_file_to_rust. destruct (eqb_bytes _ _).
  - eapply when_bind; [apply when_any|]. intros v _. eapply when_bind; [apply json_root_named|]. intros r R. apply when_ok. exact R.
  - destruct (json_name _) as [[nm vt|]|] eqn:J; try apply when_err. apply json_name_plain in J as [N _]. eapply when_bind; [apply when_any|]. intros v _.
    eapply when_bind; [apply item_str_named|]. intros x X. eapply when_bind; [apply into_root_named; exact X|]. intros [w o] W. apply when_ok. split; assumption.
Qed.

Definition item_named (x : res archiving_item) : Prop := when (fun it => match it with ARoot r => ro_named (ro_default r) | AItem n v _ => plain_name n /\ rt_named v end) x.

Lemma take_root_named l : forall r rest, Forall item_named l -> take_root l = Some (r, rest) -> ro_named (ro_default r) /\ Forall item_named rest.
Proof.
  induction l as [|x l IH]; intros r rest F E; [discriminate E|]. inversion F as [|? ? Fx Fl]; subst. cbn [take_root] in E.
  assert (Go : match take_root l with Some (r, others) => Some (r, x :: others) | None => None end = Some (r, rest) -> ro_named (ro_default r) /\ Forall item_named rest).
  { destruct (take_root l) as [[r' others]|]; [|discriminate]. intros H. apply Some_inj, pair_equal_spec in H as [<- <-]. destruct (IH r' others Fl eq_refl) as [A B]. split; [exact A|constructor; assumption]. }
  destruct x as [[r0|nm v s]| |]; try exact (Go E). apply Some_inj, pair_equal_spec in E as [<- <-]. split; [exact Fx|exact Fl].
Qed.

Theorem files_named files : when (fun r => ro_named (ro_default r)) (files_to_root addr iter parse files).
Proof.
  unfold files_to_root. cbv zeta. destruct (existsb is_panic _); [apply when_panic|]. destruct (existsb _ _); [apply when_err|].
  assert (F : Forall item_named (map (fun f => json_file_to_rust addr iter parse (fst f) (snd f)) files)).
  { apply Forall_forall. intros x X. apply in_map_iff in X as (f & <- & _). apply file_named. }
  eapply when_bind with (P := fun x => ro_named (ro_default (fst x)) /\ Forall item_named (snd x)).
  - apply when_of. intros [r rest] E. destruct (take_root _) as [[r' rest']|] eqn:Et; [|discriminate E]. apply Ok_inj, pair_equal_spec in E as [<- <-]. exact (take_root_named _ _ _ F Et).
  - intros [r rest] [Hr Fr]. cbn [fst snd] in *. eapply when_bind with (P := fun vec => Forall (fun e => plain_name (fst e) /\ rt_named (fst (snd e))) vec).
    + unfold other_items. apply when_mmap. intros x X. apply (proj1 (Forall_forall _ _) Fr) in X. destruct x as [[r0|nm v s]| |]; try apply when_err; [|apply when_panic].
      apply when_ok. exact X.
    + intros vec V. unfold construct_root.
      assert (G : forall (l : list (name * (rootvalue * option (rootsab mutlist)))) d s, Forall (fun e => plain_name (fst e) /\ rt_named (fst (snd e))) l -> ro_named d ->
        ro_named (fst (fold_left (fun st e => let '(default, sabun) := st in let '(nm, (value, sab)) := e in
                 (hset nm (zlen default, value) default, match sab with Some sab => hset nm sab sabun | None => sabun end)) l (d, s)))).
      { clear. induction l as [|[nm [v o]] l IH]; intros d s Hl D; [exact D|]. inversion Hl as [|? ? H1 H2]; subst. cbn [fold_left]. apply IH; [exact H2|].
        intros k i w I. apply in_hset in I as [[-> E]|I]; [|exact (D _ _ _ I)]. apply pair_equal_spec in E as [-> ->]. exact H1. }
      specialize (G (sort_by_name vec) (ro_default r) (ro_sabun r)). destruct (fold_left _ (sort_by_name vec) _) as [d s]. apply new_root_named, G; [|exact Hr].
      apply Forall_forall. intros e E. apply (proj1 (Forall_forall _ _) V). eapply Permutation_in; [apply sort_perm|exact E].
Qed.

Theorem load_named files validation : when (fun r => ro_named (ro_default r)) (load_root addr iter parse files validation).
Proof. unfold load_root. eapply when_bind; [apply files_named|]. intros r R. eapply when_bind; [apply when_any|]. intros _ _. apply when_ok. exact R. Qed.
End Conversion.

Lemma plain_sayable s : plain_name s -> sayable s.
Proof. intros (c & r & -> & C & R). exists c, r. split; [reflexivity|]. split; [tauto|exact R]. Qed.

Lemma listed_named root stem l : ro_named root -> listed root stem l -> well_named (Def l).
Proof.
  intros N. induction 1 as [key id l rows old I|key id l items I|key id l u I|stem l key id l' L IH I|stem l key id l' u L IH I].
  - exact (proj2 (N _ _ _ I)).
  - exact (proj2 (N _ _ _ I)).
  - exact (proj2 (N _ _ _ I)).
  - inversion IH as [? _ _ C _]; subst. exact (C _ _ _ I).
  - inversion IH as [? _ _ _ M]; subst. exact (M _ _ _ _ I).
Qed.

Lemma named_speakable root : ro_named root -> (forall key id d rows old, In (key, (id, WTable d rows old)) root -> forall row it, In (row, it) rows -> sayable row) -> speakable root.
Proof.
  intros N R. constructor.
  - intros key [i v] I. apply plain_sayable. exact (proj1 (N _ _ _ I)).
  - intros stem l L key v I. pose proof (listed_named _ _ _ N L) as W. inversion W as [? M _ _ _]; subst. exact (plain_sayable _ (M _ _ I)).
  - intros stem l L key v I. pose proof (listed_named _ _ _ N L) as W. inversion W as [? _ M _ _]; subst. exact (plain_sayable _ (M _ _ I)).
  - exact R.
Qed.

(** names that cause no trouble can be said *)
Lemma snake_tail_wordish r : snake_tail r -> Forall (fun c => lower c \/ upper c \/ digit c \/ c = 95) r.
Proof. induction 1 as [|c r H _ IH|c r H _ IH]; [constructor|constructor; [tauto|exact IH]|]. constructor; [tauto|]. constructor; [tauto|exact IH]. Qed.
Lemma ordinary_sayable s : ordinary s -> sayable s.
Proof.
  intros (((c & r & -> & C & R) & _) & _). exists c, r. split; [reflexivity|]. split; [tauto|exact (snake_tail_wordish _ R)].
Qed.
Lemma tame_speakable root : tame root -> speakable root.
Proof.
  intros T. constructor.
  - intros key v I. exact (ordinary_sayable _ (t_names root T _ _ I)).
  - intros stem l L key v I. exact (ordinary_sayable _ (proj2 (t_members root T _ _ L) _ _ I)).
  - intros stem l L key v I. destruct (t_refs root T _ _ L) as (_ & _ & R). destruct (R _ _ I) as (_ & id & d & rows & old & I'). exact (ordinary_sayable _ (t_names root T _ _ I')).
  - intros key id d rows old I row it I'. destruct (t_rows root T _ _ _ _ _ I) as (_ & _ & R). exact (ordinary_sayable _ (R _ _ I')).
Qed.
