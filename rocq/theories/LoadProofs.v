(** What loading makes of conditions on the source files. *)
From Coq Require Import String.
From Verif Require Import Base FloatModel FloatProofs CompactionSpec StringCompactionModel StringCompactionProofs DocModel DiffSpec DiffProofs
  ArchiveModel JsonModel JsonSpec JsonNameProofs JsonProofs ValidSpec LoadSpec.

(* ------------------------------------------------------------------ *)
(** * Outcomes *)

(** if there is a result it has the property [P] *)
Definition gives {A} (P : A -> Prop) (r : res A) : Prop := match r with Ok a => P a | _ => True end.

Lemma gives_bind {A B} (P : A -> Prop) (Q : B -> Prop) r (f : A -> res B) : gives P r -> (forall a, P a -> gives Q (f a)) -> gives Q (bind r f).
Proof. destruct r; cbn; auto. Qed.
Lemma gives_any {A B} (Q : B -> Prop) (r : res A) (f : A -> res B) : (forall a, gives Q (f a)) -> gives Q (bind r f).
Proof. destruct r; cbn; auto. Qed.
Lemma gives_impl {A} (P Q : A -> Prop) r : gives P r -> (forall a, P a -> Q a) -> gives Q r.
Proof. destruct r; cbn; auto. Qed.
Lemma gives_ok {A} (P : A -> Prop) r a : gives P r -> r = Ok a -> P a.
Proof. intros H ->. exact H. Qed.

Lemma gives_mfold {A B} (P : A -> Prop) (f : A -> B -> res A) l : (forall a b, In b l -> P a -> gives P (f a b)) ->
  forall a, P a -> gives P (mfold f l a).
Proof.
  induction l as [|b l IH]; intros H a Ha; cbn [mfold]; [exact Ha|].
  eapply gives_bind; [apply H; [left; reflexivity|exact Ha]|]. intros a' Ha'. apply IH; [|exact Ha']. intros; apply H; [right|]; assumption.
Qed.
(** with what was visited so far *)
Lemma gives_mfold_from {A B} (P : list B -> A -> Prop) (f : A -> B -> res A) l : forall seen,
  (forall seen a b, In b l -> P seen a -> gives (P (seen ++ [b])) (f a b)) ->
  forall a, P seen a -> gives (P (seen ++ l)) (mfold f l a).
Proof.
  induction l as [|b l IH]; intros seen H a Ha; cbn [mfold]; [rewrite app_nil_r; exact Ha|].
  eapply gives_bind; [apply H; [left; reflexivity|exact Ha]|]. intros a' Ha'. replace (seen ++ b :: l) with ((seen ++ [b]) ++ l) by (rewrite <- app_assoc; reflexivity).
  apply IH; [|exact Ha']. intros; apply H; [right|]; assumption.
Qed.

Lemma gives_mmap {A B} (R : A -> B -> Prop) (f : A -> res B) l : (forall a, In a l -> gives (R a) (f a)) -> gives (Forall2 R l) (mmap f l).
Proof.
  induction l as [|b l IH]; intros H; cbn [mmap]; [constructor|].
  eapply gives_bind; [apply H; left; reflexivity|]. intros x Hx. eapply gives_bind; [apply IH; intros; apply H; right; assumption|].
  intros r Hr. constructor; assumption.
Qed.

Lemma hset_length {A} k (v : A) m : zlen (hset k v m) <= zlen m + 1.
Proof.
  assert (H : (length (hset k v m) <= S (length m))%nat); [|unfold zlen; lia].
  induction m as [|[x a] m IH]; cbn; [lia|]. destruct (eqb_bytes x k); cbn; lia.
Qed.

Lemma everywhere_node P v : everywhere P v -> P v.
Proof. destruct 1; assumption. Qed.
Lemma everywhere_array P l x : everywhere P (JArray l) -> In x l -> everywhere P x.
Proof. intros H. inversion H as [v A B C]; subst. eauto. Qed.
Lemma everywhere_map P m k x : everywhere P (JMap m) -> In (k, x) m -> everywhere P x.
Proof. intros H. inversion H as [v A B C]; subst. eauto. Qed.
Lemma everywhere_impl (P Q : jval -> Prop) v : (forall x, P x -> Q x) -> everywhere P v -> everywhere Q v.
Proof. intros H. induction 1 as [v A B IB C IC]. constructor; eauto. Qed.
Lemma everywhere_and (P Q : jval -> Prop) v : everywhere P v -> everywhere Q v -> everywhere (fun x => P x /\ Q x) v.
Proof.
  induction 1 as [v A B IB C IC]. intros H. inversion H as [w A' B' C']; subst. constructor; eauto.
Qed.

(* ------------------------------------------------------------------ *)
(** * The conversion *)

Section Conversion.
Variable addr : list Z -> Z.
Variable iter : forall A, hmap A -> hmap A.
Hypothesis It : iterates iter.
Variable P : jval -> Prop.
Variable PP : param -> Prop.
Variable PR : qv (list Z) -> Prop.
Variable QL : list Z -> Z -> Prop.
Variable few : Z -> Prop.

Hypothesis few_less : forall a b, few a -> 0 <= b <= a -> few b.
Hypothesis P_map : forall m, P (JMap m) -> few (zlen m).
Hypothesis few_zero : few 0.
Hypothesis P_list : forall a, P (JArray a) -> QL (item_ids 0 a) (next_of a).
Hypothesis PP_bool : forall q, PP (PBool q).
Hypothesis PP_null : forall q, match q with Val _ => False | _ => True end -> PP (PFloat q) /\ PP (PInt q).
Hypothesis PP_null' : forall q, match q with Val _ => False | _ => True end -> PP (PString q) /\ PP (PIntArray q) /\ PP (PBinary q).
Hypothesis PP_null'' : forall q, match q with Val _ => False | _ => True end -> PP (PFloatArray q).
Hypothesis PP_int : forall i, P (JInt i) -> PP (PInt (Val i)).
Hypothesis PP_int_float : forall i, P (JInt i) -> PP (PFloat (Val (i64_to_f64 i))).
Hypothesis PP_float : forall i, P (JDouble i) -> PP (PFloat (Val i)).
Hypothesis PP_string : forall s, P (JString s) -> PP (PString (Val (addr s, s))).
Hypothesis PP_ints : forall a b l, P (JArray a) -> zlen l <= zlen a -> Forall (fun i => PP (PInt (Val i))) l -> b = addr l -> PP (PIntArray (Val (b, l))).
Hypothesis PP_floats : forall a l, P (JArray a) -> zlen l <= zlen a -> Forall (fun i => PP (PFloat (Val i))) l -> PP (PFloatArray (Val l)).
Hypothesis PP_bytes : forall a b l, P (JArray a) -> zlen l <= zlen a -> Forall (fun i => 0 <= i < 256) l -> b = addr l -> PP (PBinary (Val (b, l))).
Hypothesis PR_text : forall q, PP (PString q) -> PR (ref_text q).

Notation item_sound := (item_sound PP PR QL).
Notation def_few := (def_few few).
Notation mut_sound := (mut_sound PP PR QL).

Definition rv_sound (v : rvalue) : Prop :=
  match v with
  | VaParam p _ => PP p
  | VaTable d items _ => def_few d /\ forall i c, In (i, c) items -> item_sound c
  | VaCList d items => def_few d /\ forall c, In c items -> item_sound c
  | VaMList d _ o => def_few d /\ mut_sound o
  | VaCil items => forall c, In c items -> item_sound c
  | VaMil o => mut_sound o
  | VaCilDef d | VaMilDef d _ => def_few d
  end.

Definition refs_sound (r : hmap (Z * (qv (list Z) * var_type))) : Prop :=
  NoDup (map fst r) /\ few (zlen r) /\ forall k i q vt, In (k, (i, (q, vt))) r -> PR q.

(** the object made of the members [m] *)
Definition tmp_sound (m : list (name * jval)) (o : tmp_obj) : Prop :=
  NoDup (map fst (to_default o)) /\ zlen (to_default o) <= zlen m /\
  (forall k i v, In (k, (i, v)) (to_default o) -> rv_sound v) /\
  refs_sound (tr_map (to_refs o)) /\
  (to_id o = None -> hget (txt "ID") m = None) /\
  (forall n, to_id o = Some (IdNum n) -> exists b, hget (txt "ID") m = Some (JDouble b) /\ n = to_uint 64 (fdec F64 b)).

Lemma enumerate_length {A} (l : list A) : forall i, zlen (enumerate_from i l) = zlen l.
Proof. induction l as [|x l IH]; intros i; cbn [enumerate_from]; [reflexivity|]. rewrite !zlen_cons, IH. reflexivity. Qed.

Lemma iter_length {A} (m : hmap A) : zlen (iter A m) = zlen m.
Proof. unfold zlen. rewrite (Permutation_length (It A m)). reflexivity. Qed.

(** every loop that inserts into a map *)
Lemma gives_inserts {A B} (key : B -> name) (f : hmap A -> B -> res A) (Q : A -> Prop) (step : hmap A -> B -> res (hmap A)) l :
  (forall r b, step r b = bind (f r b) (fun a => Ok (hset (key b) a r))) ->
  (forall r b, In b l -> gives Q (f r b)) ->
  gives (fun r => NoDup (map fst r) /\ zlen r <= zlen l /\ forall k a, In (k, a) r -> Q a) (mfold step l []).
Proof.
  intros E H.
  apply (gives_mfold_from (fun seen (r : hmap A) => NoDup (map fst r) /\ zlen r <= zlen seen /\ forall k a, In (k, a) r -> Q a)) with (seen := []).
  - intros seen r b Ib (N & L & F). rewrite E. eapply gives_bind; [apply H, Ib|]. intros a Ha. cbn. split; [apply hset_nodup, N|]. split.
    + rewrite zlen_app. pose proof (hset_length (key b) a r). unfold zlen at 3. cbn. lia.
    + intros k a' I. apply in_hset in I as [[_ ->]|I]; eauto.
  - split; [constructor|]. split; [reflexivity|]. intros k a [].
Qed.

Lemma list_def_sound m o : tmp_sound m o -> P (JMap m) -> gives def_few (into_list_def_obj iter o).
Proof.
  intros (N & L & Hv & (Rn & Rf & _) & _) Pm. unfold into_list_def_obj. destruct (to_id o); [exact I|]. unfold to_list_def_val_map.
  eapply gives_bind.
  - apply (gives_inserts (fun e => fst (snd e)) (fun _ e => d <- into_list_def_value (snd (snd (snd e))) ; Ok (fst e, d))
      (fun a => match snd a with DParam _ _ => True | DCil d => def_few d | DMil d _ => def_few d end)).
    + intros r [idx [k [i v]]]. cbn. destruct (into_list_def_value v); reflexivity.
    + intros r [idx [k [i v]]] I0. cbn. apply (in_map snd) in I0. cbn in I0.
      assert (Iv : In (k, (i, v)) (to_default o)).
      { apply (iter_in iter It). clear - I0. unfold enumerate in I0. revert I0. generalize 0 as j. induction (iter _ (to_default o)) as [|x l IH]; cbn; [intros _ []|].
        intros j [->|H]; [left; reflexivity|right; eauto]. }
      apply Hv in Iv. destruct v; cbn; auto.
  - intros ms (A1 & A2 & A3). constructor; cbn.
    + apply few_less with (a := zlen m); [apply P_map, Pm|]. unfold enumerate in A2. rewrite enumerate_length, iter_length in A2. pose proof (zlen_nonneg ms). lia.
    + exact Rf.
    + intros key id d' I. apply (A3 _ _ I).
    + intros key id d' u I. apply (A3 _ _ I).
Qed.

Lemma item_of_sound m o : tmp_sound m o -> gives item_sound (item_of iter o).
Proof.
  intros (N & L & Hv & (Rn & Rf & Rr) & _). unfold item_of, to_list_sab_map.
  eapply gives_bind.
  - apply (gives_inserts (fun e => fst e) (fun _ e => into_list_sab_value (snd (snd e)))
      (fun a => match a with VParam p => PP p | VCil l => forall c, In c l -> item_sound c | VMil o => mut_sound o end)).
    + intros r [k [i v]]. reflexivity.
    + intros r [k [i v]] I0. apply (iter_in iter It) in I0. apply Hv in I0. cbn. destruct v; cbn; auto.
  - intros vs (A1 & _ & A3). cbn.
    assert (Rs : NoDup (map fst (to_ref_sab_map iter (tr_map (to_refs o)))) /\
                 forall k q, In (k, q) (to_ref_sab_map iter (tr_map (to_refs o))) -> PR q).
    { unfold to_ref_sab_map. assert (Hl : forall e, In e (iter _ (tr_map (to_refs o))) -> PR (fst (snd (snd e)))).
      { intros [k [i [q vt]]] I0. apply (iter_in iter It) in I0. apply (Rr _ _ _ _ I0). }
      revert Hl. generalize (iter _ (tr_map (to_refs o))) as l.
      assert (G : forall l (r : hmap (qv (list Z))), (forall e : name * (Z * (qv (list Z) * var_type)), In e l -> PR (fst (snd (snd e)))) ->
        NoDup (map fst r) /\ (forall k q, In (k, q) r -> PR q) ->
        let r' := fold_left (fun result e => let '(k, (_, (q, _))) := e in hset k q result) l r in
        NoDup (map fst r') /\ (forall k q, In (k, q) r' -> PR q)).
      { induction l as [|[k [i [q vt]]] l IH]; intros r Hl [B1 B2]; cbn; [auto|]. apply IH; [intros; apply Hl; right; assumption|].
        split; [apply hset_nodup, B1|]. intros k' q' I0. apply in_hset in I0 as [[_ ->]|I0]; [apply (Hl _ (or_introl eq_refl))|eauto]. }
      intros l Hl. apply G; [exact Hl|]. split; [constructor|intros k q []]. }
    destruct Rs as [Rs1 Rs2]. constructor; cbn [ci_values ci_refs].
    + exact A1.
    + exact Rs1.
    + intros key p I0. apply (A3 _ _ I0).
    + exact Rs2.
    + intros key l c1 I0. apply (A3 _ _ I0).
    + intros key l next I0. apply (A3 _ _ I0).
    + intros key l next id c1 I0. apply (A3 _ _ I0).
Qed.

Lemma into_list_item_sound m o : tmp_sound m o -> gives item_sound (into_list_item iter o).
Proof. intros T. unfold into_list_item. destruct (to_id o); [exact I|]. destruct (_ && _); [eapply item_of_sound, T|exact I]. Qed.

Lemma to_list_items_sound l ms : Forall2 tmp_sound ms l -> gives (fun items => forall c, In c items -> item_sound c) (to_list_items iter l).
Proof.
  intros F. unfold to_list_items. eapply gives_impl; [apply (gives_mmap (fun _ c => item_sound c))|].
  - intros o Io. induction F as [|m o' ms l T F IH]; [destruct Io|]. destruct Io as [->|Io]; [eapply into_list_item_sound, T|auto].
  - intros items G c Ic. clear F. induction G as [|x y l items H G IH]; [destruct Ic|]. destruct Ic as [->|Ic]; auto.
Qed.

Lemma to_data_items_sound l ms : Forall2 tmp_sound ms l -> gives (fun items => forall i c, In (i, c) items -> item_sound c) (to_data_items iter l).
Proof.
  intros F. unfold to_data_items.
  apply (gives_mfold (fun items : hmap citem => forall i c, In (i, c) items -> item_sound c)); [|intros i c []].
  intros r o Io Hr. assert (G : gives (fun e => item_sound (snd e)) (into_list_item_with_id iter o)).
  { assert (T : exists m, tmp_sound m o).
    { clear - F Io. induction F as [|m o' ms l T F IH]; [destruct Io|]. destruct Io as [->|Io]; [eauto|auto]. }
    destruct T as [m T]. unfold into_list_item_with_id. destruct (to_id o) as [[s|n]|]; try exact I; destruct (_ && _); try exact I.
    eapply gives_bind; [eapply item_of_sound, T|]. intros it H. exact H. }
  eapply gives_bind; [exact G|]. intros [s c] Hc. cbn. intros i c' I0. apply in_hset in I0 as [[_ ->]|I0]; eauto.
Qed.

Lemma mut_items_sound l ms : Forall2 tmp_sound ms l -> forall i,
  gives (fun items => map fst items = item_ids i (map JMap ms) /\ forall id c, In (id, c) items -> item_sound c)
    (mmap (fun e => into_mut_list_item iter (snd e) (fst e)) (enumerate_from i l)).
Proof.
  induction 1 as [|m o ms l T F IH]; intros i; cbn [enumerate_from mmap map item_ids]; [split; [reflexivity|intros id c []]|].
  eapply gives_bind with (P := fun e => fst e = item_id i m /\ item_sound (snd e)).
  - unfold into_mut_list_item. cbn [fst snd]. destruct T as (N & L & Hv & Hr & I1 & I2) eqn:ET. clear ET.
    eapply gives_bind with (P := fun id => id = item_id i m).
    + unfold item_id. destruct (to_id o) as [[s|n]|]; [exact I| |].
      * destruct (I2 n eq_refl) as (b & -> & ->). reflexivity.
      * rewrite (I1 eq_refl). reflexivity.
    + intros id ->. destruct (_ && _); [|exact I]. eapply gives_bind; [apply (item_of_sound m); repeat (split; [assumption|]); assumption|]. intros c Hc. split; [reflexivity|exact Hc].
  - intros [id c] [E Hc]. eapply gives_bind; [apply IH|]. intros items [A B]. cbn in *. split; [congruence|].
    intros id' c' [E'|I0]; [injection E' as <- <-; exact Hc|eauto].
Qed.

Lemma item_ids_length l : forall i j, zlen (item_ids i l) = zlen (item_ids j l).
Proof. induction l as [|x l IH]; intros i j; [reflexivity|]. destruct x; cbn [item_ids]; auto. rewrite !zlen_cons. f_equal. apply IH. Qed.
Lemma item_ids_maps ms : forall i, zlen (item_ids i (map JMap ms)) = zlen ms.
Proof. induction ms as [|m ms IH]; intros i; cbn [map item_ids]; [reflexivity|]. rewrite !zlen_cons, IH. reflexivity. Qed.

Lemma forall2_zlen {A B} (R : A -> B -> Prop) l l' : Forall2 R l l' -> zlen l = zlen l'.
Proof. induction 1; [reflexivity|]. rewrite !zlen_cons. congruence. Qed.

(** the list made of the array [a] *)
Definition tl_sound (a : list jval) (t : tmp_list) : Prop :=
  (exists ms, Forall2 tmp_sound ms (tl_vec t) /\ forall i, item_ids i a = item_ids i (map JMap ms)) /\
  tl_next t = written_next a /\
  forall d, tl_default t = Some d -> def_few d.

Lemma mut_list_sound a t : tl_sound a t -> P (JArray a) ->
  gives (fun l => mut_sound (Some l)) (to_mut_list_items iter (tl_vec t) (unwrap_or (tl_next t) (zlen (tl_vec t)))).
Proof.
  intros ((ms & F & E) & Hn & _) Pa. unfold to_mut_list_items, enumerate. eapply gives_bind; [apply (mut_items_sound _ _ F)|].
  intros items [A B]. cbn. split; [|exact B]. rewrite A, <- E.
  replace (unwrap_or (tl_next t) (zlen (tl_vec t))) with (next_of a); [apply P_list, Pa|].
  unfold next_of. rewrite Hn. destruct (written_next a); cbn; [reflexivity|]. rewrite E, item_ids_maps. apply (forall2_zlen _ _ _ F).
Qed.

Lemma lists_sound a t : tl_sound a t -> P (JArray a) ->
  gives rv_sound (into_const_list iter t) /\ gives rv_sound (into_inner_list iter t) /\ gives rv_sound (into_const_data iter t) /\
  (forall u, gives rv_sound (into_mut_list iter t u)) /\ gives rv_sound (into_mut_inner_list iter t) /\
  gives rv_sound (into_inner_def t) /\ (forall u, gives rv_sound (into_inner_mut_def t u)).
Proof.
  intros S Pa. pose proof (mut_list_sound a t S Pa) as M. destruct S as ((ms & F & E) & Hn & Hd). split; [|split; [|split; [|split; [|split; [|split]]]]].
  - unfold into_const_list. destruct (is_some (tl_old t)); [exact I|]. destruct (tl_default t) as [d|]; [|exact I]. destruct (is_some (tl_next t)); [exact I|].
    eapply gives_bind; [eapply to_list_items_sound, F|]. intros items Hi. split; [apply Hd; reflexivity|exact Hi].
  - unfold into_inner_list. destruct (_ || _); [exact I|]. eapply gives_bind; [eapply to_list_items_sound, F|]. intros items Hi. exact Hi.
  - unfold into_const_data. destruct (tl_default t) as [d|]; [|exact I]. destruct (is_some (tl_next t)); [exact I|].
    eapply gives_bind; [eapply to_data_items_sound, F|]. intros items Hi. split; [apply Hd; reflexivity|exact Hi].
  - intros u. unfold into_mut_list. destruct (is_some (tl_old t)); [exact I|]. destruct (tl_default t) as [d|]; [|exact I].
    eapply gives_bind; [exact M|]. intros items Hi. split; [apply Hd; reflexivity|exact Hi].
  - unfold into_mut_inner_list. destruct (_ || _); [exact I|]. eapply gives_bind; [exact M|]. intros items Hi; exact Hi.
  - unfold into_inner_def, only_default. destruct (is_some (tl_old t)); [exact I|]. destruct (tl_default t) as [d|]; [|exact I].
    destruct (_ || _); [exact I|]. apply Hd; reflexivity.
  - intros u. unfold into_inner_mut_def, only_default. destruct (is_some (tl_old t)); [exact I|]. destruct (tl_default t) as [d|]; [|exact I].
    destruct (_ || _); [exact I|]. apply Hd; reflexivity.
Qed.

Section Step.
Variable arr : list jval -> var_type -> res rvalue.
Variable obj : list (name * jval) -> bool -> res tmp_obj.
Hypothesis Harr : forall a vt, everywhere P (JArray a) -> gives rv_sound (arr a vt).
Hypothesis Hobj : forall m b, everywhere P (JMap m) -> gives (tmp_sound m) (obj m b).

Definition element_sound (t : array_type) (p : param) : Prop :=
  match t with AtFloat => exists f, p = PFloat (Val f) /\ PP p | _ => exists i, p = PInt (Val i) /\ PP p end.

Lemma array_item_sound t x : everywhere P x -> gives (element_sound t) (array_item arr t x).
Proof.
  intros W. pose proof (everywhere_node _ _ W) as Px. destruct x; cbn; try exact I.
  - destruct t; cbn; eauto.
  - destruct t; cbn; eauto.
  - destruct t; cbn; auto. eapply gives_bind; [apply Harr, W|].
    intros rv Hrv. destruct rv; try exact I. destruct p; try exact I. destruct q; try exact I. cbn. eauto.
Qed.

Lemma get_array_sound t a : (forall x, In x a -> everywhere P x) ->
  gives (fun q => match q with Val l => Forall (element_sound t) l /\ zlen l = zlen a | _ => True end) (get_array arr a t).
Proof.
  intros W. unfold get_array.
  assert (G : gives (fun q => match q with Val l => Forall (element_sound t) l /\ zlen l = zlen a | _ => True end) (l <- mmap (array_item arr t) a ; Ok (Val l))).
  { eapply gives_bind; [apply (gives_mmap (fun _ p => element_sound t p)); intros x Ix; apply array_item_sound, W, Ix|].
    intros l F. cbn. split; [|symmetry; apply (forall2_zlen _ _ _ F)]. clear - F. induction F; constructor; assumption. }
  destruct a as [|[] [|]]; try exact I; exact G.
Qed.

Lemma map_opt_forall {A B} (f : A -> option B) (Q : A -> Prop) (R : B -> Prop) l r :
  (forall a b, Q a -> f a = Some b -> R b) -> Forall Q l -> map_opt f l = Some r -> Forall R r /\ zlen r = zlen l.
Proof.
  intros H F. revert r. induction F as [|a l Qa F IH]; intros r; cbn [map_opt]; [intros E; injection E as <-; split; [constructor|reflexivity]|].
  destruct (f a) as [b|] eqn:Ea; [|discriminate]. destruct (map_opt f l) as [r'|]; [|discriminate]. intros E; injection E as <-.
  destruct (IH r' eq_refl) as [A1 A2]. split; [constructor; [eapply H; eassumption|exact A1]|]. rewrite !zlen_cons, A2. reflexivity.
Qed.

Lemma to_param_sound a q t : P (JArray a) ->
  match q with Val l => Forall (element_sound t) l /\ zlen l <= zlen a | _ => True end ->
  gives PP (to_param addr q t).
Proof.
  intros Pa H. destruct q as [l| |]; [|destruct t; cbn; [apply (PP_null'' Undefined I)|apply (PP_null' Undefined I)|apply (PP_null' Undefined I)]|destruct t; cbn; [apply (PP_null'' Null I)|apply (PP_null' Null I)|apply (PP_null' Null I)]].
  destruct H as [F L]. destruct t; cbn.
  - destruct (to_floats l) as [r|] eqn:E; [|exact I]. cbn.
    assert (G : Forall (fun i => PP (PFloat (Val i))) r /\ zlen r = zlen l).
    { eapply map_opt_forall; [|exact F|exact E]. cbn. intros p b (f & -> & Hp) Ef. cbn in Ef. injection Ef as <-. exact Hp. }
    destruct G as [A1 A2].
    apply (PP_floats a); [exact Pa|lia|exact A1].
  - destruct (to_ints l) as [r|] eqn:E; [|exact I]. cbn.
    assert (G : Forall (fun i => PP (PInt (Val i))) r /\ zlen r = zlen l).
    { eapply map_opt_forall; [|exact F|exact E]. cbn. intros p b (f & -> & Hp) Ef. cbn in Ef. injection Ef as <-. exact Hp. }
    destruct G as [A1 A2].
    apply (PP_ints a); [exact Pa|lia|exact A1|reflexivity].
  - destruct (to_u8s l) as [r|] eqn:E; [|exact I]. cbn.
    assert (G : Forall (fun i => 0 <= i < 256) r /\ zlen r = zlen l).
    { eapply map_opt_forall; [|exact F|exact E]. intros p b (f & -> & Hp) Ef. cbn in Ef.
      destruct ((0 <=? f) && (f <? 256)) eqn:B; [|discriminate]. injection Ef as <-. apply andb_true_iff in B as [B1 B2]. lia. }
    destruct G as [A1 A2]. apply (PP_bytes a); [exact Pa|lia|exact A1|reflexivity].
Qed.

Lemma get_default_sound a : (forall x, In x a -> everywhere P x) -> gives def_few (get_default iter obj a).
Proof.
  intros W. unfold get_default. destruct a as [|[] [|]]; try exact I. specialize (W _ (or_introl eq_refl)).
  eapply gives_bind; [apply Hobj, W|]. intros o T. eapply list_def_sound; [exact T|apply everywhere_node, W].
Qed.

Lemma list_attribute_sound a2 : (forall x, In x a2 -> everywhere P x) ->
  gives (fun at' => match at' with
    | ADefault d => def_few d /\ forall r, written_next (JArray a2 :: r) = written_next r
    | AOld _ => forall r, written_next (JArray a2 :: r) = written_next r
    | ANextID n => forall r, written_next (JArray a2 :: r) = Some n
    end) (list_attribute iter obj a2).
Proof.
  intros W. unfold list_attribute. destruct a2 as [|[| | | s| | | |mm] rest]; try exact I.
  - assert (Other : eqb_bytes s (txt "NextID") = false -> forall r, written_next (JArray (JString s :: rest) :: r) = written_next r).
    { intros E r. cbn [written_next]. destruct rest as [|[] [|]]; try reflexivity. rewrite E. reflexivity. }
    destruct (eqb_bytes s (txt "Default")) eqn:ED.
    + eapply gives_bind; [apply get_default_sound; intros x Ix; apply W; right; exact Ix|]. intros d Hd. cbn. split; [exact Hd|]. apply Other.
      apply eqb_bytes_eq in ED; subst s. reflexivity.
    + destruct (eqb_bytes s (txt "Old")) eqn:EO.
      * apply gives_any. intros l. cbn. apply Other. apply eqb_bytes_eq in EO; subst s. reflexivity.
      * destruct (eqb_bytes s (txt "NextID")) eqn:EN; [|exact I]. destruct rest as [|[] [|]]; try exact I. cbn [gives]. intros r. cbn [written_next]. rewrite EN. reflexivity.
  - eapply gives_bind; [apply get_default_sound; exact W|]. intros d Hd. cbn [gives]. split; [exact Hd|]. intros r. reflexivity.
Qed.

Lemma written_next_maps ms : written_next (map JMap ms) = None.
Proof. induction ms; [reflexivity|exact IHms]. Qed.

Lemma json_list_sound a : forall t, (forall x, In x a -> everywhere P x) -> tl_vec t = [] -> (forall d, tl_default t = Some d -> def_few d) ->
  gives (fun t' => (exists ms, Forall2 tmp_sound ms (tl_vec t') /\ forall i, item_ids i a = item_ids i (map JMap ms)) /\
    tl_next t' = match tl_next t with Some n => Some n | None => written_next a end /\
    forall d, tl_default t' = Some d -> def_few d) (json_list_loop iter obj t a).
Proof.
  induction a as [|x a IH]; intros t W V Hd; cbn [json_list_loop].
  - cbn [gives]. split; [exists []; rewrite V; split; [constructor|reflexivity]|]. split; [destruct (tl_next t); reflexivity|exact Hd].
  - pose proof (W x (or_introl eq_refl)) as Wx. destruct x as [| | | | | |a2|mm]; try exact I.
    + eapply gives_bind; [apply list_attribute_sound; intros y Iy; eapply everywhere_array; [exact Wx|exact Iy]|].
      intros at' Hat. assert (Wa : forall x, In x a -> everywhere P x) by (intros; apply W; right; assumption).
      destruct at' as [d|old|n].
      * destruct (is_some (tl_default t)); [exact I|]. cbn [bind]. destruct Hat as [Hf Hn]. eapply gives_impl; [apply IH; [exact Wa|exact V|cbn; intros d' E; injection E as <-; exact Hf]|].
        cbn. intros t' (A1 & A2 & A3). split; [exact A1|]. split; [|exact A3]. rewrite A2. destruct (tl_next t); [reflexivity|]. symmetry; apply (Hn a).
      * destruct (is_some (tl_old t)); [exact I|]. cbn [bind]. eapply gives_impl; [apply IH; [exact Wa|exact V|exact Hd]|].
        cbn. intros t' (A1 & A2 & A3). split; [exact A1|]. split; [|exact A3]. rewrite A2. destruct (tl_next t); [reflexivity|]. symmetry; apply (Hat a).
      * destruct (tl_next t) as [n0|] eqn:En; cbn [is_some]; [exact I|]. cbn [bind]. eapply gives_impl; [apply IH; [exact Wa|exact V|exact Hd]|].
        cbn. intros t' (A1 & A2 & A3). split; [exact A1|]. split; [|exact A3]. rewrite A2. symmetry; apply (Hat a).
    + set (b := JMap mm :: a) in *.
      eapply gives_bind with (P := fun items => exists ms, b = map JMap ms /\ Forall2 tmp_sound ms items).
      * unfold get_list_items. eapply gives_impl; [apply (gives_mmap (fun x o => exists m, x = JMap m /\ tmp_sound m o))|].
        -- intros y Iy. destruct y as [| | | | | | |my]; try exact I. eapply gives_impl; [apply Hobj, W, Iy|]. intros o T. eauto.
        -- intros items F. clear - F. induction F as [|y o l items (m & -> & T) F (ms & -> & G)]; [exists []; split; [reflexivity|constructor]|].
           exists (m :: ms). split; [reflexivity|constructor; assumption].
      * intros items (ms & E & F). cbn [gives tl_vec tl_next tl_default]. split; [exists ms; split; [exact F|intros i; rewrite E; reflexivity]|]. split; [|exact Hd].
        rewrite E, written_next_maps. destruct (tl_next t); reflexivity.
Qed.

Lemma array_null_sound a g vt : (forall x, In x a -> everywhere P x) -> gives rv_sound (array_null_or_undefined a g vt).
Proof.
  intros W. unfold array_null_or_undefined. destruct a as [|x [|]]; try (destruct x; exact I); [exact I|]. specialize (W _ (or_introl eq_refl)). apply everywhere_node in W.
  destruct x; try exact I; destruct g; try exact I; cbn.
  all: try (apply (PP_null Null I)); try (apply (PP_null' Null I)); try (apply (PP_null Undefined I)); try (apply (PP_null' Undefined I)); auto.
Qed.

Lemma tagged a : get_array_type a <> GNoTagInt -> get_array_type a <> GNotDefined -> exists s r, a = JString s :: r.
Proof. destruct a as [|[] r]; cbn; try congruence. eauto. Qed.

Lemma json_array_sound a vt : everywhere P (JArray a) -> gives rv_sound (json_array_to_rust addr iter arr obj a vt).
Proof.
  intros W. assert (Wa : forall x, In x a -> everywhere P x) by (intros x; apply everywhere_array, W).
  assert (Wt : forall x, In x (tl a) -> everywhere P x) by (intros x Ix; apply Wa; destruct a; [destruct Ix|right; exact Ix]).
  pose proof (everywhere_node _ _ W) as Pa.
  assert (W0 : (exists s r, a = JString s :: r) -> gives (tl_sound a) (json_list_to_rust iter obj (tl a))).
  { intros (s & r & ->). eapply gives_impl; [apply json_list_sound; [exact Wt|reflexivity|cbn; discriminate]|]. intros t H. exact H. }
  assert (Lt : zlen (tl a) <= zlen a) by (destruct a; cbn [tl]; [lia|rewrite zlen_cons; lia]).
  unfold json_array_to_rust. destruct (get_array_type a) eqn:G; try exact I.
  1:{ eapply gives_bind; [apply get_array_sound; exact Wt|]. intros q Hq. eapply gives_bind; [apply (to_param_sound a); [exact Pa|]|intros p Hp; exact Hp].
      destruct q; auto. destruct Hq; split; [assumption|lia]. }
  all: try (apply array_null_sound; exact Wt).
  8:{ eapply gives_bind; [apply get_array_sound; exact Wa|]. intros q Hq.
      pose proof (to_param_sound a q AtInt Pa) as Gp. destruct (to_param addr q AtInt) as [p| |]; try exact I. cbn. apply Gp.
      destruct q; auto. destruct Hq; split; [assumption|lia]. }
  all: destruct vt; try exact I.
  all: eapply gives_bind; [apply W0, tagged; rewrite G; discriminate|]; intros t Tt; destruct (lists_sound a t Tt Pa) as (L1 & L2 & L3 & L4 & L5 & L6 & L7); auto; exact I.
Qed.

Lemma get_ref_sound m : everywhere P (JMap m) -> gives (fun r => refs_sound (tr_map r)) (get_ref iter obj m).
Proof.
  intros W. unfold get_ref. eapply gives_bind; [apply Hobj, W|]. intros o (N & L & Hv & _). destruct (_ || _); [exact I|].
  eapply gives_bind.
  - apply (gives_inserts (fun e : Z * (name * (Z * rvalue)) => fst (snd e)) (fun _ e =>
        match snd (snd (snd e)) with
        | VaParam (PString q) vt =>
            match q with
            | Val s => if negb (is_some (json_simple_name (snd s))) && negb (is_nil (snd s)) then Err else Ok (fst e, (ref_text q, vt))
            | _ => Ok (fst e, (ref_text q, vt))
            end
        | _ => Err
        end) (fun a => PR (fst (snd a)))).
    + intros r [idx [k [i v]]]. cbn. destruct v; try reflexivity. destruct p; try reflexivity. destruct q; try reflexivity. destruct (_ && _); reflexivity.
    + intros r [idx [k [i v]]] I0. cbn. apply (in_map snd) in I0. cbn in I0.
      assert (Iv : In (k, (i, v)) (to_default o)).
      { apply (iter_in iter It). clear - I0. unfold enumerate in I0. revert I0. generalize 0 as j. induction (iter _ (to_default o)) as [|x l IH]; cbn; [intros _ []|].
        intros j [->|H]; [left; reflexivity|right; eauto]. }
      apply Hv in Iv. destruct v; try exact I. cbn in Iv. destruct p; try exact I. pose proof (PR_text _ Iv) as T.
      destruct q; try exact T. destruct (_ && _); [exact I|exact T].
  - intros rs (A1 & A2 & A3). cbn. split; [exact A1|]. split.
    + apply few_less with (a := zlen m); [apply P_map, (everywhere_node _ _ W)|]. unfold enumerate in A2. rewrite enumerate_length, iter_length in A2. pose proof (zlen_nonneg rs). lia.
    + intros k i q vt I0. apply (A3 _ _ I0).
Qed.

Lemma name_not_id k n : json_name k = Some n -> n <> NSystem SID -> eqb_bytes k (txt "ID") = false.
Proof.
  intros E H. apply eqb_bytes_neq. intros ->. apply H. assert (J : json_name (txt "ID") = Some (NSystem SID)) by reflexivity. congruence.
Qed.

Lemma hget_snoc_other {A} k (m : hmap A) x a : eqb_bytes x k = false -> hget k (m ++ [(x, a)]) = hget k m.
Proof. intros E. induction m as [|[y b] m IH]; cbn; [rewrite E; reflexivity|]. destruct (eqb_bytes y k); auto. Qed.
Lemma hget_snoc_same {A} k (m : hmap A) a : hget k m = None -> hget k (m ++ [(k, a)]) = Some a.
Proof. induction m as [|[y b] m IH]; cbn; [rewrite eqb_bytes_refl; reflexivity|]. destruct (eqb_bytes y k); [discriminate|auto]. Qed.

Lemma obj_step_sound is_ref seen st e : everywhere P (snd e) -> tmp_sound seen (fst st) ->
  gives (fun st => tmp_sound (seen ++ [e]) (fst st)) (obj_step addr iter arr obj is_ref st e).
Proof.
  intros W T. destruct st as [r c], e as [k v]. destruct T as (N & L & Hv & Hr & I1 & I2). cbn [fst snd] in *.
  assert (L1 : zlen (seen ++ [(k, v)]) = zlen seen + 1) by (rewrite zlen_app; reflexivity).
  pose proof (everywhere_node _ _ W) as Pv.
  unfold obj_step. destruct (json_name k) as [[nm vt|sn]|] eqn:J; [| |exact I].
  - pose proof (name_not_id _ _ J ltac:(discriminate)) as Nk. eapply gives_bind with (P := rv_sound).
    + destruct is_ref; destruct v; try exact I; cbn; auto; try (apply (PP_null' Null I)); try (apply (PP_null' Undefined I)); try (apply PP_string, Pv).
    + intros x Hx. cbn. split; [apply hset_nodup, N|]. split; [cbn; pose proof (hset_length nm (c, x) (to_default r)); unfold name in *; lia|].
      split; [cbn; intros k' i' v' I'; apply in_hset in I' as [[_ E]|I']; [injection E as -> ->; exact Hx|eauto]|].
      split; [exact Hr|]. cbn. rewrite (hget_snoc_other _ _ _ _ Nk). auto.
  - assert (Keep : forall r', to_default r' = to_default r -> to_id r' = to_id r -> refs_sound (tr_map (to_refs r')) -> sn <> SID -> tmp_sound (seen ++ [(k, v)]) r').
    { intros r' E1 E2 E3 E4. unfold tmp_sound. rewrite E1, E2. pose proof (name_not_id _ _ J ltac:(congruence)) as Nk. rewrite (hget_snoc_other _ _ _ _ Nk).
      split; [exact N|]. split; [unfold name in *; lia|]. auto. }
    destruct sn.
    + destruct v; try exact I. apply gives_any. intros old. cbn. apply Keep; try reflexivity; [exact Hr|discriminate].
    + destruct (to_id r) as [id|] eqn:Eid; cbn [is_some]; [exact I|]. apply json_name_system in J. cbn in J. subst k.
      specialize (I1 eq_refl). destruct (get_id v) as [id|] eqn:Eg; [|exact I]. cbn.
      split; [exact N|]. split; [cbn; unfold name in *; lia|]. split; [exact Hv|]. split; [exact Hr|]. cbn.
      split; [discriminate|]. intros n En. injection En as ->. destruct v; try discriminate. cbn in Eg. injection Eg as <-.
      eexists. split; [apply hget_snoc_same, I1|reflexivity].
    + destruct (negb _); [exact I|]. destruct v; try exact I. eapply gives_bind; [apply get_ref_sound, W|].
      intros rf Hrf. cbn. apply Keep; try reflexivity; [exact Hrf|discriminate].
    + destruct (negb _); [exact I|]. destruct v; try exact I. eapply gives_bind; [apply get_ref_sound, W|].
      intros rf Hrf. cbn. apply Keep; try reflexivity; [exact Hrf|discriminate].
Qed.

Lemma new_tmp_obj_sound : tmp_sound [] new_tmp_obj.
Proof.
  split; [constructor|]. split; [reflexivity|]. split; [intros k i v []|]. split; [split; [constructor|]; split; [exact few_zero|intros k i q vt []]|].
  split; [reflexivity|discriminate].
Qed.

Lemma json_obj_sound m b : everywhere P (JMap m) -> gives (tmp_sound m) (json_obj_to_rust addr iter arr obj m b).
Proof.
  intros W. unfold json_obj_to_rust. eapply gives_bind.
  - apply (gives_mfold_from (fun seen st => tmp_sound seen (fst st))) with (seen := []); [|exact new_tmp_obj_sound].
    intros seen st [k v] Ie T. apply obj_step_sound; [eapply everywhere_map; [exact W|exact Ie]|exact T].
  - intros [r c] T. exact T.
Qed.
End Step.

Lemma convert_sound n : (forall a vt, everywhere P (JArray a) -> gives rv_sound (arr_of addr iter n a vt)) /\
  (forall m b, everywhere P (JMap m) -> gives (tmp_sound m) (obj_of addr iter n m b)).
Proof.
  induction n as [|n [IA IO]]; [split; intros; exact I|]. unfold arr_of, obj_of in *. cbn [convert].
  destruct (convert addr iter n) as [arr obj]. cbn [fst snd] in *. split; intros.
  - apply json_array_sound; auto.
  - apply json_obj_sound; auto.
Qed.

Lemma item_str_sound v vt : everywhere P v -> gives rv_sound (json_item_str_to_rust addr iter v vt).
Proof.
  intros W. pose proof (everywhere_node _ _ W). unfold json_item_str_to_rust. destruct v; try exact I; cbn [json_item_to_rust gives rv_sound]; auto; [apply PP_string; assumption|]. apply convert_sound, W.
Qed.

(* ------------------------------------------------------------------ *)
(** * The root *)

Notation rt_sound := (rootvalue_sound PP PR QL few).
Notation rs_sound := (rootsab_sound PP PR QL).

Lemma into_root_value_sound v : rv_sound v -> gives (fun x => rt_sound (fst x) /\ forall s, snd x = Some s -> rs_sound s) (into_root_value v).
Proof. destruct v; cbn; auto; intros H; (split; [apply H|]); intros s E; try discriminate. injection E as <-. apply H. Qed.

Definition maps_sound (d : hmap (Z * rootvalue)) (s : hmap (rootsab mutlist)) : Prop :=
  (forall k i v, In (k, (i, v)) d -> rt_sound v) /\ (forall k x, In (k, x) s -> rs_sound x) /\ NoDup (map fst s).

Lemma maps_sound_set d s k i v o : maps_sound d s -> rt_sound v -> (forall x, o = Some x -> rs_sound x) ->
  maps_sound (hset k (i, v) d) (match o with Some x => hset k x s | None => s end).
Proof.
  intros (A & B & C) Hv Ho. split; [|split].
  - intros k' i' v' I0. apply in_hset in I0 as [[_ E]|I0]; [injection E as -> ->; exact Hv|eauto].
  - destruct o as [x|]; [|exact B]. intros k' x' I0. apply in_hset in I0 as [[_ ->]|I0]; eauto.
  - destruct o as [x|]; [apply hset_nodup, C|exact C].
Qed.

Lemma to_root_hash_sound m : (forall k i v, In (k, (i, v)) m -> rv_sound v) ->
  gives (fun x => maps_sound (fst x) (snd x)) (to_root_hash iter m).
Proof.
  intros H. unfold to_root_hash. apply (gives_mfold (fun x => maps_sound (fst x) (snd x))).
  - intros [d s] [k [i v]] I0 M. apply (iter_in iter It) in I0. eapply gives_bind; [apply into_root_value_sound, (H _ _ _ I0)|].
    intros [w o] [A B]. cbn in *. apply maps_sound_set; auto.
  - split; [intros k i v []|]. split; [intros k x []|constructor].
Qed.

Definition ro_sound (r : root_obj) : Prop := maps_sound (ro_default r) (ro_sabun r).

Lemma new_root_sound d s o : maps_sound d s -> gives ro_sound (new_root iter d s o).
Proof. intros M. unfold new_root. apply gives_any. intros T. exact M. Qed.

Lemma json_root_sound v : everywhere P v -> gives ro_sound (json_root_to_rust addr iter v).
Proof.
  intros W. unfold json_root_to_rust. destruct v; try exact I. eapply gives_bind; [apply convert_sound, W|].
  intros o (_ & _ & Hv & _). unfold into_root_obj. destruct (_ || _); [exact I|]. eapply gives_bind; [apply to_root_hash_sound, Hv|].
  intros [d s] M. apply new_root_sound, M.
Qed.

Lemma construct_root_sound r vec : ro_sound r -> (forall k v o, In (k, (v, o)) vec -> rt_sound v /\ forall x, o = Some x -> rs_sound x) ->
  gives ro_sound (construct_root iter r vec).
Proof.
  intros M H. unfold construct_root.
  assert (Hs : forall k v o, In (k, (v, o)) (sort_by_name vec) -> rt_sound v /\ forall x, o = Some x -> rs_sound x).
  { intros k v o I0. apply (H k v o). eapply Permutation_in; [apply sort_perm|exact I0]. }
  assert (G : forall l d s, maps_sound d s -> (forall k v o, In (k, (v, o)) l -> rt_sound v /\ forall x, o = Some x -> rs_sound x) ->
    let '(d', s') := fold_left (fun st e => let '(default, sabun) := st in let '(nm, (value, sab)) := e in
                 (hset nm (zlen default, value) default, match sab with Some sab => hset nm sab sabun | None => sabun end)) l (d, s) in maps_sound d' s').
  { induction l as [|[k [v o]] l IH]; intros d s Md Hl; cbn [fold_left]; [exact Md|]. apply IH; [|intros; eapply Hl; right; eassumption].
    destruct (Hl k v o (or_introl eq_refl)). apply maps_sound_set; assumption. }
  specialize (G _ _ _ M Hs). destruct (fold_left _ (sort_by_name vec) _) as [d s]. apply new_root_sound, G.
Qed.

Variable parse : list Z -> option jval.

Lemma file_sound path content : (forall v, parse content = Some v -> everywhere P v) ->
  gives (fun it => match it with ARoot r => ro_sound r | AItem _ v o => rt_sound v /\ forall x, o = Some x -> rs_sound x end)
    (json_file_to_rust addr iter parse path content).
Proof.
  intros W. unfold json_file_to_rust. destruct (eqb_bytes (file_stem path) (txt "root")).
  - destruct (parse content) as [v|]; [|exact I]. cbn [ok_or bind]. eapply gives_bind; [apply json_root_sound, W; reflexivity|]. intros r H; exact H.
  - destruct (json_name (file_stem path)) as [[nm vt|]|]; try exact I. destruct (parse content) as [v|]; [|exact I]. cbn [ok_or bind].
    eapply gives_bind; [apply item_str_sound, W; reflexivity|]. intros rv Hrv. eapply gives_bind; [apply into_root_value_sound, Hrv|]. intros [w o] H. exact H.
Qed.

Theorem files_sound files : all_files (everywhere P) parse files -> gives ro_sound (files_to_root addr iter parse files).
Proof.
  intros W. unfold files_to_root. set (items := map (fun f => json_file_to_rust addr iter parse (fst f) (snd f)) files).
  assert (F : forall x, In x items -> gives (fun it => match it with ARoot r => ro_sound r | AItem _ v o => rt_sound v /\ forall x, o = Some x -> rs_sound x end) x).
  { intros x Ix. apply in_map_iff in Ix as ([path content] & <- & If). apply file_sound. intros v E. eapply W; eassumption. }
  destruct (existsb is_panic items); [exact I|]. destruct (existsb _ items); [exact I|].
  destruct (take_root items) as [[r others]|] eqn:Et; [|exact I]. cbn [ok_or bind].
  assert (T : ro_sound r /\ forall x, In x others -> In x items).
  { clear - Et F. revert r others Et. induction items as [|x items IH]; intros r others; cbn [take_root]; [discriminate|].
    assert (Go : (match take_root items with Some (r, others) => Some (r, x :: others) | None => None end) = Some (r, others) ->
      ro_sound r /\ forall y, In y others -> In y (x :: items)).
    { destruct (take_root items) as [[r' o']|]; [|discriminate]. intros E; injection E as -> <-. destruct (IH ltac:(intros; apply F; right; assumption) r o' eq_refl) as [A B].
      split; [exact A|]. intros y [->|Iy]; [left; reflexivity|right; auto]. }
    pose proof (F x (or_introl eq_refl)) as Fx. destruct x as [[r0|nm v s]| |]; auto. intros E; injection E as -> <-. split; [exact Fx|]. intros y Iy; right; exact Iy. }
  destruct T as [Tr To]. eapply gives_bind with (P := fun vec => forall k v o, In (k, (v, o)) vec -> rt_sound v /\ forall x, o = Some x -> rs_sound x).
  - unfold other_items. eapply gives_impl; [apply (gives_mmap (fun _ e => rt_sound (fst (snd e)) /\ forall x, snd (snd e) = Some x -> rs_sound x))|].
    + intros x Ix. apply To, F in Ix. destruct x as [[r0|nm v s]| |]; cbn; auto.
    + intros vec G k v o I0. clear - G I0. induction G as [|x e l vec H G IH]; [destruct I0|]. destruct I0 as [->|I0]; auto.
  - intros vec Hv. apply construct_root_sound; assumption.
Qed.
End Conversion.

(* ------------------------------------------------------------------ *)
(** * Ids *)

Lemma sound_distinct PP PR (QL : list Z -> Z -> Prop) c : (forall l n, QL l n -> NoDup l) -> item_sound PP PR QL c -> distinct_ids c.
Proof. intros H. induction 1 as [c A1 A2 A3 A4 A5 A6 A7 A8 A9]. constructor; eauto. Qed.

Lemma loaded_distinct addr iter parse files r : iterates iter -> all_files (everywhere unique_node) parse files ->
  files_to_root addr iter parse files = Ok r -> distinct_root r.
Proof.
  intros It U E.
  assert (G : gives (ro_sound (fun _ => True) (fun _ => True) (fun l _ => NoDup l) (fun _ => True)) (files_to_root addr iter parse files))
    by (apply (files_sound addr iter It unique_node); cbn; auto).
  rewrite E in G. destruct G as (A & B & C). split.
  - intros c (key & id & v & Iv & H). pose proof (A _ _ _ Iv) as S. assert (G : item_sound (fun _ => True) (fun _ => True) (fun l _ => NoDup l) c).
    { destruct v as [| | |]; cbn in S; [destruct H|destruct H as [i H]; eapply S, H|eapply S, H|].
      destruct H as (l & next & i & G & H). apply hget_in in G. pose proof (B _ _ G) as S'. eapply S', H. }
    eapply sound_distinct; [|exact G]. auto.
  - intros key id d u l next _ G. apply hget_in in G. apply (B _ _ G).
Qed.

