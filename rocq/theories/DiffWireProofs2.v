(** Whole differences through the diff format. *)
From Verif Require Import Base CompactionModel CompactionSpec FloatModel FloatProofs StringCompactionModel
  LinkedModel LinkedSpec LinkedProofs DocModel DiffModel DiffWireModel DiffSpec DiffProofs DiffWireProofs.

Lemma plains_app a b : plains (a ++ b) = plains a ++ plains b.
Proof. apply map_app. Qed.

Lemma map_snd_id {A} (m : bmap A) : map_snd (fun a => a) m = m.
Proof. unfold map_snd. induction m as [|[a b] m IH]; cbn; [reflexivity|]. rewrite IH. reflexivity. Qed.

Lemma Forall2_len {A B} (R : A -> B -> Prop) l r : Forall2 R l r -> length l = length r.
Proof. induction 1; cbn; auto. Qed.

Lemma visited_u64 b : visited (SU64 b) = bits_of b.
Proof. reflexivity. Qed.

Lemma filter_cons_split {A} (f : A -> bool) l x r : filter f l = x :: r ->
  exists l1 l2, l = l1 ++ x :: l2 /\ filter f l1 = [] /\ filter f l2 = r.
Proof.
  induction l as [|a l IH]; cbn; [discriminate|]. destruct (f a) eqn:E.
  - intros H; injection H as -> <-. exists [], l. auto.
  - intros H. destruct (IH H) as (l1 & l2 & -> & H1 & H2). exists (a :: l1), l2. cbn. rewrite E. auto.
Qed.

Lemma filter_nil_in {A} (f : A -> bool) l : filter f l = [] -> forall x, In x l -> f x = false.
Proof.
  induction l as [|a l IH]; cbn; [intros _ x []|]. destruct (f a) eqn:E; [discriminate|]. intros H x [->|I]; auto.
Qed.

Lemma loop_skip {A} (step : Z -> A -> list kval -> res (A * list kval)) V : (forall id, In id V -> forall a r, step id a r = Ok (a, r)) ->
  forall a r, numbers_loop step V a r = Ok (a, r).
Proof.
  induction V as [|id V IH]; intros H a r; [reflexivity|]. cbn. rewrite H by (left; reflexivity). cbn. apply IH. intros; apply H; right; assumption.
Qed.

Lemma loop_roundtrip {X Y} (sel : Z -> bool) (step : Z -> list (Z * Y) -> list kval -> res (list (Z * Y) * list kval))
  (wr : list kval -> Z * X -> res (list kval)) (g : X -> Y) (P : Z -> X -> Prop) :
  (forall id x, P id x -> exists v, (forall r, wr r (id, x) = Ok (r ++ v)) /\ Forall wf_kval v /\
     forall acc rest, step id acc (plains v ++ rest) = Ok (acc ++ [(id, g x)], rest)) ->
  forall xs, Forall (fun e => P (fst e) (snd e)) xs ->
  exists ks, (forall r, mfold wr xs r = Ok (r ++ ks)) /\ Forall wf_kval ks /\
    forall V, (forall id, In id V -> sel id = false -> forall acc r, step id acc r = Ok (acc, r)) -> filter sel V = map fst xs ->
    forall acc rest, numbers_loop step V acc (plains ks ++ rest) = Ok (acc ++ map_snd g xs, rest).
Proof.
  intros HP. induction xs as [|[id x] xs IH]; intros F.
  - exists []. split; [intros; cbn; rewrite app_nil_r; reflexivity|]. split; [constructor|]. intros V Hs HV acc rest. cbn [map plains app map_snd].
    rewrite app_nil_r. apply loop_skip. intros id I. apply Hs; [exact I|]. apply (filter_nil_in _ _ HV); exact I.
  - apply Forall_cons_iff in F as [Fx F]. destruct (HP id x Fx) as (v & Ev & Wv & Sv). destruct (IH F) as (ks & Eks & Wks & Sks).
    exists (v ++ ks). split; [|split; [apply Forall_app; auto|]].
    + intros r. cbn [mfold]. rewrite Ev; cbn [bind]. rewrite Eks, app_assoc. reflexivity.
    + intros V Hs HV acc rest. cbn [map fst] in HV. apply filter_cons_split in HV as (V1 & V2 & -> & H1 & H2).
      rewrite numbers_loop_app, loop_skip.
      * cbn [bind numbers_loop]. rewrite plains_app, <- app_assoc, Sv. cbn [bind].
        rewrite (Sks V2); [|intros; apply Hs; [apply in_or_app; right; right; assumption|assumption]|exact H2].
        cbn [map_snd map fst snd]. rewrite <- app_assoc. reflexivity.
      * intros i I. apply Hs; [apply in_or_app; left; exact I|]. apply (filter_nil_in _ _ H1); exact I.
Qed.

Lemma sorted_ascending l : StronglySorted Z.lt l -> forall lo, (forall x, In x l -> lo <= x) -> ascending lo l.
Proof.
  induction 1 as [|x l S IH F]; intros lo H; [exact I|]. cbn. split; [apply H; left; reflexivity|]. apply IH.
  intros y I. rewrite Forall_forall in F. specialize (F y I). lia.
Qed.

Lemma ascending_sorted l : forall lo, ascending lo l -> StronglySorted Z.lt l.
Proof.
  induction l as [|x l IH]; cbn; intros lo H; [constructor|]. destruct H as [H1 H2]. constructor; [eapply IH; exact H2|].
  apply Forall_forall. intros y I. apply (ascending_in _ _ _ H2) in I. lia.
Qed.

Lemma ascending_len l : forall lo hi, ascending lo l -> lo <= hi -> (forall x, In x l -> x < hi) -> lo + zlen l <= hi.
Proof.
  induction l as [|x l IH]; intros lo hi A Hl H; [unfold zlen; cbn; lia|]. destruct A as [A1 A2].
  assert (x < hi) by (apply H; left; reflexivity).
  specialize (IH (x + 1) hi A2 ltac:(lia) (fun y I => H y (or_intror I))). unfold zlen in *. cbn [length]. lia.
Qed.

(** ** Entries of the three kinds *)

Section Entries.
Context {M : Type}.
Variable mem : Z -> list Z.
Variable T : metatable M.
Hypothesis HT : forall id x, meta_get T id = Some x -> 0 <= id < 2 ^ 62.

Definition is_param (id : Z) : bool := match meta_get T id with Some (_, MParam _ _) => true | _ => false end.
Definition is_list (id : Z) : bool := match meta_get T id with Some (_, MMList _) | Some (_, MOptMil _) => true | _ => false end.

Definition p_ok (id : Z) (p : param) : Prop :=
  exists key vt, meta_get T id = Some (key, MParam (type_of p) vt) /\ acceptable vt (param_qv_type p) = true /\ wf_param mem p.
Definition r_ok (id : Z) (q : qv (list Z)) : Prop :=
  exists key pt vt, meta_get T id = Some (key, MParam pt vt) /\ acceptable vt (qv_type_of q) = true /\ wf_ref q.

Lemma params_roundtrip (ps : bmap param) : Forall (fun e => p_ok (fst e) (snd e)) ps ->
  exists ks, write_params ps T = Ok ks /\ Forall wf_kval ks /\
    (forall V, filter is_param V = map fst ps -> forall rest, numbers_loop (step_param T) V [] (plains ks ++ rest) = Ok (map_snd fresh_param ps, rest)) /\
    (forall rest, numbers_loop (step_param_strict T) (map fst ps) [] (plains ks ++ rest) = Ok (map_snd fresh_param ps, rest)).
Proof.
  intros F.
  set (wr := fun (r : list kval) (e : Z * param) => let '(id, p) := e in
    match meta_get T id with
    | Some (_, MParam _ vt) => v <- write_param p vt ; Ok (r ++ v)
    | _ => Panic
    end).
  destruct (loop_roundtrip is_param (step_param T) wr fresh_param p_ok) with (xs := ps) as (ks & E & W & R); [|exact F|].
  - intros id p (key & vt & Em & A & Wp). destruct (param_roundtrip mem p vt A Wp) as (v & Ev & Wv & Hv).
    exists v. unfold wr, step_param. rewrite Em, Ev. cbn [bind]. split; [reflexivity|]. split; [exact Wv|]. intros acc rest. rewrite Hv. reflexivity.
  - destruct (loop_roundtrip (fun _ => true) (step_param_strict T) wr fresh_param p_ok) with (xs := ps) as (ks' & E' & _ & R'); [|exact F|].
    + intros id p (key & vt & Em & A & Wp). destruct (param_roundtrip mem p vt A Wp) as (v & Ev & Wv & Hv).
      exists v. unfold wr, step_param_strict. rewrite Em, Ev. cbn [bind]. split; [reflexivity|]. split; [exact Wv|]. intros acc rest. rewrite Hv. reflexivity.
    + assert (ks' = ks) as -> by (specialize (E []); specialize (E' []); rewrite E in E'; apply Ok_inj in E'; auto).
      exists ks. split; [exact (E [])|]. split; [exact W|]. split.
      * intros V HV rest. rewrite R; [reflexivity| |exact HV]. intros id _ Hs acc r. unfold step_param. unfold is_param in Hs.
        destruct (meta_get T id) as [[key [| |]]|]; try discriminate; reflexivity.
      * intros rest. rewrite R'; [reflexivity|discriminate|]. clear. induction (map fst ps); cbn; congruence.
Qed.

Lemma refs2_roundtrip (rs : bmap (qv (list Z))) : Forall (fun e => r_ok (fst e) (snd e)) rs ->
  exists ks, write_refs2 rs T = Ok ks /\ Forall wf_kval ks /\
    (forall V, V = map fst rs -> forall rest, numbers_loop (step_ref T) V [] (plains ks ++ rest) = Ok (rs, rest)).
Proof.
  intros F.
  destruct (loop_roundtrip (fun _ => true) (step_ref T) (fun (r : list kval) (e : Z * qv (list Z)) => let '(id, q) := e in
    match meta_get T id with
    | Some (_, MParam _ vt) => v <- write_ref q vt ; Ok (r ++ v)
    | _ => Panic
    end) (fun q => q) r_ok) with (xs := rs) as (ks & E & W & R); [|exact F|].
  - intros id q (key & pt & vt & Em & A & Wp). destruct (ref_roundtrip q vt A Wp) as (v & Ev & Wv & Hv).
    exists v. unfold step_ref. rewrite Em, Ev. cbn [bind]. split; [reflexivity|]. split; [exact Wv|]. intros acc rest. rewrite Hv. reflexivity.
  - exists ks. split; [exact (E [])|]. split; [exact W|]. intros V -> rest. rewrite R.
    + rewrite map_snd_id. reflexivity.
    + discriminate.
    + clear. induction (map fst rs); cbn; congruence.
Qed.

Lemma refs_roundtrip (rs : bmap (qv (list Z))) : sorted_keys rs -> Forall (fun e => r_ok (fst e) (snd e)) rs ->
  exists ks, write_refs rs T = Ok ks /\ Forall wf_kval ks /\ (forall rest, read_refs T (plains ks ++ rest) = Ok (rs, rest)).
Proof.
  intros S F.
  assert (Rg : forall id, In id (map fst rs) -> 0 <= id < 2 ^ 62).
  { intros id I. apply in_map_iff in I as ([id' q] & <- & I). rewrite Forall_forall in F. destruct (F _ I) as (key & pt & vt & Em & _).
    apply HT in Em. cbn [fst] in *. lia. }
  destruct (refs2_roundtrip rs F) as (ks & E & W & R).
  destruct (store_ids_ok (map fst rs) []) as (s & Es & Ws & Z0 & Hs).
  - apply sorted_ascending; [exact S|]. intros x I. apply Rg in I. lia.
  - exact I.
  - apply Forall_forall. intros x I. apply Rg in I. lia.
  - constructor.
  - pose proof (ascending_len (map fst rs) 0 (2 ^ 62)) as Len. assert (Z0' : zlen (@nil Z) = 0) by reflexivity. rewrite Z0'.
    enough (0 + zlen (map fst rs) <= 2 ^ 62) by lia. apply Len; [|lia|intros x I; apply Rg in I; lia].
    apply sorted_ascending; [exact S|]; intros x I; apply Rg in I; lia.
  - destruct (stored_roundtrip s Ws) as [Wk Rk]. unfold write_refs, read_refs. rewrite Es; cbn [bind].
    assert (HV : s <> SZero -> visited s = map fst rs).
    { intros N. destruct s as [|b|w|l]; [congruence| | |].
      - destruct Hs as [A H]. apply (ascending_unique _ _ 0); [exact A|apply sorted_ascending; [exact S|]; intros x I; apply Rg in I; lia|].
        intros x. rewrite H. cbn; tauto.
      - destruct Hs as [A H]. apply (ascending_unique _ _ 0); [exact A|apply sorted_ascending; [exact S|]; intros x I; apply Rg in I; lia|].
        intros x. rewrite H. cbn; tauto.
      - cbn. rewrite Hs, app_nil_r. reflexivity. }
    destruct s as [|b|w|l].
    + eexists; split; [reflexivity|]. split; [exact Wk|]. intros rest. rewrite Rk; cbn [bind]. destruct (Z0 eq_refl) as [H0 _].
      apply map_eq_nil in H0. subst rs. reflexivity.
    + rewrite E; cbn [bind]. eexists; split; [reflexivity|]. split; [apply Forall_app; auto|]. intros rest. rewrite plains_app, <- app_assoc, Rk; cbn [bind].
      rewrite read_bits_numbers by apply Ws. apply R. specialize (HV ltac:(discriminate)). rewrite <- HV. symmetry. apply visited_u64.
    + rewrite E; cbn [bind]. eexists; split; [reflexivity|]. split; [apply Forall_app; auto|]. intros rest. rewrite plains_app, <- app_assoc, Rk; cbn [bind].
      rewrite words_loop_numbers by apply Ws. apply R. specialize (HV ltac:(discriminate)). cbn [visited] in HV. exact HV.
    + rewrite E; cbn [bind]. eexists; split; [reflexivity|]. split; [apply Forall_app; auto|]. intros rest. rewrite plains_app, <- app_assoc, Rk; cbn [bind].
      apply R. specialize (HV ltac:(discriminate)). cbn [visited] in HV. exact HV.
Qed.

(** ** Lists *)

Context {LD : Type}.
Variable inner_w : LD -> M -> res (list kval).
Variable inner_r : M -> list kval -> res (LD * list kval).
Variable inner_fresh : LD -> LD.
Variable ip : LD -> M -> Prop.
Hypothesis Hin : forall x t, ip x t -> exists ks, inner_w x t = Ok ks /\ Forall wf_kval ks /\
  forall rest, inner_r t (plains ks ++ rest) = Ok (inner_fresh x, rest).

Definition l_ok (id : Z) (o : option LD) : Prop :=
  exists key, match meta_get T id with
              | Some (k, MMList t) => k = key /\ exists x, o = Some x /\ ip x t
              | Some (k, MOptMil t) => k = key /\ match o with Some x => ip x t | None => True end
              | _ => False
              end.

Lemma lists_roundtrip (ls : bmap (option LD)) : Forall (fun e => l_ok (fst e) (snd e)) ls ->
  exists ks, write_ld_lists inner_w ls T = Ok ks /\ Forall wf_kval ks /\
    (forall V, (forall id, In id V -> meta_get T id <> None) -> filter is_list V = map fst ls ->
       forall rest, numbers_loop (step_list inner_r T) V [] (plains ks ++ rest) = Ok (map_snd (option_map inner_fresh) ls, rest)) /\
    (forall V, filter is_list V = map fst ls ->
       forall rest, numbers_loop (step_list_numbers inner_r T) V [] (plains ks ++ rest) = Ok (map_snd (option_map inner_fresh) ls, rest)).
Proof.
  intros F.
  set (wr := fun (r : list kval) (e : Z * option LD) => let '(id, op) := e in
    match meta_get T id with
    | None => Panic
    | Some (_, MMList tables) =>
        match op with
        | Some op => v <- inner_w op tables ; Ok (r ++ v)
        | None => Err
        end
    | Some (_, MOptMil tables) =>
        match op with
        | Some l => v <- inner_w l tables ; Ok (r ++ KBit true :: v)
        | None => Ok (r ++ [KBit false])
        end
    | Some (_, MParam _ _) => Panic
    end).
  assert (Step : forall id o, l_ok id o -> exists v, (forall r, wr r (id, o) = Ok (r ++ v)) /\ Forall wf_kval v /\
     forall acc rest, step_list inner_r T id acc (plains v ++ rest) = Ok (acc ++ [(id, option_map inner_fresh o)], rest)).
  { intros id o [key H]. unfold wr, step_list. destruct (meta_get T id) as [[k [pt vt|t|t]]|]; try contradiction.
    - destruct H as (-> & x & -> & Hx). destruct (Hin x t Hx) as (ks & E & W & R). exists ks. rewrite E; cbn [bind].
      split; [reflexivity|]. split; [exact W|]. intros acc rest. cbn [read_op_list]. rewrite R. reflexivity.
    - destruct H as (-> & H). destruct o as [x|].
      + destruct (Hin x t H) as (ks & E & W & R). exists (KBit true :: ks). rewrite E; cbn [bind].
        split; [reflexivity|]. split; [constructor; [exact I|exact W]|]. intros acc rest. cbn [plains map plain app]. unfold read_op_list.
        rewrite read_bool_bit; cbn [bind]. fold (plains ks). rewrite R. reflexivity.
      + exists [KBit false]. split; [reflexivity|]. split; [repeat constructor|]. reflexivity. }
  destruct (loop_roundtrip is_list (step_list inner_r T) wr (option_map inner_fresh) l_ok Step ls F) as (ks & E & W & R).
  destruct (loop_roundtrip is_list (step_list_numbers inner_r T) wr (option_map inner_fresh) l_ok) with (xs := ls) as (ks' & E' & _ & R'); [|exact F|].
  - intros id o H. destruct (Step id o H) as (v & Ev & Wv & Sv). exists v. split; [exact Ev|]. split; [exact Wv|]. intros acc rest.
    unfold step_list_numbers. destruct H as [key H]. destruct (meta_get T id) as [[k mv]|] eqn:Em; [|contradiction]. apply Sv.
  - assert (ks' = ks) as -> by (specialize (E []); specialize (E' []); rewrite E in E'; apply Ok_inj in E'; auto).
    exists ks. split; [exact (E [])|]. split; [exact W|]. split.
    + intros V HM HV rest. rewrite R; [reflexivity| |exact HV]. intros id Hi Hs acc r. unfold step_list. unfold is_list in Hs. specialize (HM id Hi).
      destruct (meta_get T id) as [[k [| |]]|]; try discriminate; [reflexivity|congruence].
    + intros V HV rest. rewrite R'; [reflexivity| |exact HV]. intros id Hi Hs acc r. unfold step_list_numbers, step_list. unfold is_list in Hs.
      destruct (meta_get T id) as [[k [| |]]|]; try discriminate; reflexivity.
Qed.

(** ** Parameters and lists behind one set of numbers *)

Lemma parts_roundtrip (ps : bmap param) (ls : bmap (option LD)) :
  sorted_keys ps -> sorted_keys ls ->
  Forall (fun e => p_ok (fst e) (snd e)) ps -> Forall (fun e => l_ok (fst e) (snd e)) ls ->
  exists s k1 k2, store_ids (map fst ps) (map fst ls) = Ok s /\ wf_stored s /\ write_params ps T = Ok k1 /\ write_ld_lists inner_w ls T = Ok k2 /\
    Forall wf_kval k1 /\ Forall wf_kval k2 /\
    match s with
    | SZero => ps = [] /\ ls = []
    | SU64 b => forall rest,
        read_bits (step_param T) b [] (plains k1 ++ rest) = Ok (map_snd fresh_param ps, rest) /\
        read_bits (step_list inner_r T) b [] (plains k2 ++ rest) = Ok (map_snd (option_map inner_fresh) ls, rest)
    | SBits w => forall rest,
        words_loop (step_param T) w 0 [] (plains k1 ++ rest) = Ok (map_snd fresh_param ps, rest) /\
        words_loop (step_list inner_r T) w 0 [] (plains k2 ++ rest) = Ok (map_snd (option_map inner_fresh) ls, rest)
    | SNumbers l => l = map fst ps ++ map fst ls /\ forall rest,
        numbers_loop (step_param T) l [] (plains k1 ++ rest) = Ok (map_snd fresh_param ps, rest) /\
        (ls = [] -> numbers_loop (step_param_strict T) l [] (plains k1 ++ rest) = Ok (map_snd fresh_param ps, rest)) /\
        numbers_loop (step_list_numbers inner_r T) l [] (plains k2 ++ rest) = Ok (map_snd (option_map inner_fresh) ls, rest)
    end.
Proof.
  intros Sp Sl Fp Fl.
  destruct (params_roundtrip ps Fp) as (k1 & E1 & W1 & R1 & R1').
  destruct (lists_roundtrip ls Fl) as (k2 & E2 & W2 & R2 & R2').
  assert (Pp : forall id, In id (map fst ps) -> is_param id = true /\ is_list id = false /\ meta_get T id <> None).
  { intros id I. apply in_map_iff in I as ([id' p] & <- & I). rewrite Forall_forall in Fp. destruct (Fp _ I) as (key & vt & Em & _).
    cbn [fst] in *. unfold is_param, is_list. rewrite Em. repeat split; discriminate. }
  assert (Pl : forall id, In id (map fst ls) -> is_param id = false /\ is_list id = true /\ meta_get T id <> None).
  { intros id I. apply in_map_iff in I as ([id' o] & <- & I). rewrite Forall_forall in Fl. destruct (Fl _ I) as (key & H).
    cbn [fst] in *. unfold is_param, is_list. destruct (meta_get T id') as [[k [| |]]|]; try contradiction; repeat split; discriminate. }
  assert (Rg : forall id, meta_get T id <> None -> 0 <= id < 2 ^ 62).
  { intros id N. destruct (meta_get T id) eqn:Em; [|congruence]. apply HT in Em. lia. }
  assert (Ap : ascending 0 (map fst ps)) by (apply sorted_ascending; [exact Sp|]; intros x I; apply Pp in I; destruct (Rg x); tauto).
  assert (Al : ascending 0 (map fst ls)) by (apply sorted_ascending; [exact Sl|]; intros x I; apply Pl in I; destruct (Rg x); tauto).
  destruct (store_ids_ok (map fst ps) (map fst ls) Ap Al) as (s & Es & Ws & Z0 & Hs).
  - apply Forall_forall. intros x I. apply Pp in I. destruct (Rg x); [tauto|lia].
  - apply Forall_forall. intros x I. apply Pl in I. destruct (Rg x); [tauto|lia].
  - assert (0 + zlen (map fst ps) <= 2 ^ 62) by (apply ascending_len; [exact Ap|lia|intros x I; apply Pp in I; destruct (Rg x); tauto]).
    assert (0 + zlen (map fst ls) <= 2 ^ 62) by (apply ascending_len; [exact Al|lia|intros x I; apply Pl in I; destruct (Rg x); tauto]).
    lia.
  - exists s, k1, k2. split; [exact Es|]. split; [exact Ws|]. split; [exact E1|]. split; [exact E2|]. split; [exact W1|]. split; [exact W2|].
    assert (HV : forall V, ascending 0 V -> (forall i, In i V <-> In i (map fst ps) \/ In i (map fst ls)) ->
      filter is_param V = map fst ps /\ filter is_list V = map fst ls /\ (forall id, In id V -> meta_get T id <> None)).
    { intros V A H. split; [|split].
      - apply (ascending_unique _ _ 0); [apply ascending_filter; exact A|exact Ap|]. intros x. rewrite filter_In, H. split.
        + intros [[I|I] P]; [exact I|]. apply Pl in I. destruct I; congruence.
        + intros I. split; [auto|]. apply Pp in I. tauto.
      - apply (ascending_unique _ _ 0); [apply ascending_filter; exact A|exact Al|]. intros x. rewrite filter_In, H. split.
        + intros [[I|I] P]; [|exact I]. apply Pp in I. destruct I as (_ & I & _); congruence.
        + intros I. split; [auto|]. apply Pl in I. tauto.
      - intros id I. apply H in I as [I|I]; [apply Pp in I|apply Pl in I]; tauto. }
    destruct s as [|b|w|l].
    + destruct (Z0 eq_refl) as [H1 H2]. apply map_eq_nil in H1, H2. auto.
    + destruct Hs as [A H]. destruct (HV _ A H) as (V1 & V2 & V3). rewrite visited_u64 in V1, V2, V3. intros rest. rewrite !read_bits_numbers by apply Ws. split; [apply R1; exact V1|apply R2; [exact V3|exact V2]].
    + destruct Hs as [A H]. destruct (HV _ A H) as (V1 & V2 & V3). intros rest. rewrite !words_loop_numbers by apply Ws. split; [apply R1; exact V1|apply R2; [exact V3|exact V2]].
    + split; [exact Hs|]. subst l.
      assert (filter is_param (map fst ps ++ map fst ls) = map fst ps /\ filter is_list (map fst ps ++ map fst ls) = map fst ls) as [V1 V2].
      { clear -Pp Pl. rewrite !filter_app.
        assert (forall (f : Z -> bool) l, (forall x, In x l -> f x = true) -> filter f l = l) as Ft.
        { intros f l H. induction l as [|x l IH]; cbn; [reflexivity|]. rewrite H by (left; reflexivity). f_equal. apply IH. intros; apply H; right; assumption. }
        assert (forall (f : Z -> bool) l, (forall x, In x l -> f x = false) -> filter f l = []) as Ff.
        { intros f l H. induction l as [|x l IH]; cbn; [reflexivity|]. rewrite H by (left; reflexivity). apply IH. intros; apply H; right; assumption. }
        rewrite (Ft is_param (map fst ps)) by (intros x I; apply Pp in I; tauto). rewrite (Ff is_param (map fst ls)) by (intros x I; apply Pl in I; tauto).
        rewrite (Ff is_list (map fst ps)) by (intros x I; apply Pp in I; tauto). rewrite (Ft is_list (map fst ls)) by (intros x I; apply Pl in I; tauto).
        rewrite app_nil_r. auto. }
      intros rest. split; [apply R1; exact V1|]. split; [|apply R2'; exact V2].
      intros ->. cbn [map]. rewrite app_nil_r. apply R1'.
Qed.
End Entries.

(** ** Items and lists *)

Section Lists.
Context {D M LD : Type}.
Variable mem : Z -> list Z.
Variable inner_w : LD -> M -> res (list kval).
Variable inner_r : M -> list kval -> res (LD * list kval).
Variable inner_fresh : LD -> LD.
Variable inner_table : D -> M -> Prop.
Variable inner_typed : LD -> D -> Prop.
Variable inner_readable : LD -> Prop.
Hypothesis Hin : forall x d t, inner_table d t -> inner_typed x d -> inner_readable x ->
  exists ks, inner_w x t = Ok ks /\ Forall wf_kval ks /\ forall rest, inner_r t (plains ks ++ rest) = Ok (inner_fresh x, rest).

Section Item.
Variable def : ldef D.
Variable meta : metatables M.
Hypothesis HM : tables_for inner_table def meta.
Hypothesis HN : few_numbers (ld_members def).
Hypothesis HNr : few_numbers (ld_refs def).

Definition inner_p (x : LD) (t : M) : Prop := exists d, inner_table d t /\ inner_typed x d /\ inner_readable x.

Lemma items_range id x : meta_get (mt_items meta) id = Some x -> 0 <= id < 2 ^ 62.
Proof.
  destruct x as [key mv]. intros E.
  assert (exists v, hget key (ld_members def) = Some (id, v)) as [v Hv].
  { apply (tf_inv _ _ _ (ts_items _ _ _ HM)) in E. destruct mv; [destruct E as (p & H & _)|destruct E as (d & H & _)|destruct E as (d & H & _)]; eauto. }
  pose proof (HN _ _ Hv) as H1. pose proof (ts_num _ _ _ HM) as H2. rewrite Forall_forall in H2. specialize (H2 _ (hget_in _ _ _ Hv)). cbn in *. lia.
Qed.

Lemma refs_range id x : meta_get (mt_refs meta) id = Some x -> 0 <= id < 2 ^ 62.
Proof.
  destruct x as [key mv]. intros E. apply (ts_refs _ _ _ HM) in E as (v & vt & Hv & _).
  pose proof (HNr _ _ Hv) as H1. pose proof (ts_rnum _ _ _ HM) as H2. rewrite Forall_forall in H2. specialize (H2 _ (hget_in _ _ _ Hv)). cbn in *. lia.
Qed.

Lemma item_roundtrip (d : itemdiff LD) : typed_itemdiff mem inner_typed d def -> readable_item inner_readable d ->
  exists ks, write_list_item2 inner_w d meta = Ok ks /\ Forall wf_kval ks /\
    forall rest, read_list_item2 inner_r meta (plains ks ++ rest) = Ok (fresh_item inner_fresh d, rest).
Proof.
  intros (Sp & Sl & Sr & Hp & Hl & Hr) [Rd Ri].
  assert (Fp : Forall (fun e => p_ok mem (mt_items meta) (fst e) (snd e)) (df_params d)).
  { apply Forall_forall. intros [id p] I. destruct (Hp id p I) as (key & p0 & vt & E & (Ft & Fa & Fw)). cbn [fst snd].
    exists key, vt. rewrite Ft. split; [apply (tf_param _ _ _ (ts_items _ _ _ HM)); exact E|]. auto. }
  assert (Fl : Forall (fun e => l_ok (mt_items meta) inner_p (fst e) (snd e)) (df_lists d)).
  { apply Forall_forall. intros [id o] I. destruct (Hl id o I) as (key & ld & u & E & Ho). cbn [fst snd].
    destruct (tf_list _ _ _ (ts_items _ _ _ HM) _ _ _ _ E) as (t & Ht & Em). exists key. rewrite Em.
    destruct u; (split; [reflexivity|]).
    - destruct o as [x|]; [|exact Logic.I]. exists ld. split; [exact Ht|]. split; [exact Ho|]. apply (Ri id x I).
    - destruct o as [x|]; [|discriminate]. exists x. split; [reflexivity|]. exists ld. split; [exact Ht|]. split; [exact Ho|]. apply (Ri id x I). }
  assert (Fr : Forall (fun e => r_ok (mt_refs meta) (fst e) (snd e)) (df_refs d)).
  { apply Forall_forall. intros [id q] I. destruct (Hr id q I) as (key & v & vt & E & A & W). cbn [fst snd].
    exists key, TString, vt. split; [|auto]. apply (ts_refs _ _ _ HM). eauto. }
  destruct (refs_roundtrip mem (mt_refs meta) refs_range (df_refs d) Sr Fr) as (k3 & E3 & W3 & R3).
  destruct (parts_roundtrip mem (mt_items meta) items_range inner_w inner_r inner_fresh inner_p) with (ps := df_params d) (ls := df_lists d)
    as (s & k1 & k2 & Es & Ws & E1 & E2 & W1 & W2 & Hs); try assumption.
  { intros x t (dd & Ht & Hd & Hx). exact (Hin x dd t Ht Hd Hx). }
  destruct (stored_roundtrip s Ws) as [Wk Rk]. unfold write_list_item2, read_list_item2. rewrite Es; cbn [bind].
  destruct s as [|b|w|l].
  - rewrite E3; cbn [bind]. eexists; split; [reflexivity|]. split; [apply Forall_app; auto|]. intros rest.
    rewrite plains_app, <- app_assoc, Rk; cbn [bind]. rewrite R3; cbn [bind]. destruct Hs as [H1 H2]. unfold fresh_item. rewrite H1, H2. reflexivity.
  - rewrite E1; cbn [bind]. rewrite E2; cbn [bind]. rewrite E3; cbn [bind]. eexists; split; [reflexivity|].
    split; [apply Forall_app; split; [exact Wk|apply Forall_app; split; [exact W1|apply Forall_app; split; [exact W2|exact W3]]]|]. intros rest. rewrite !plains_app, <- !app_assoc, Rk; cbn [bind].
    rewrite (proj1 (Hs _)); cbn [bind]. rewrite (proj2 (Hs _)); cbn [bind]. rewrite R3. reflexivity.
  - rewrite E1; cbn [bind]. rewrite E2; cbn [bind]. rewrite E3; cbn [bind]. eexists; split; [reflexivity|].
    split; [apply Forall_app; split; [exact Wk|apply Forall_app; split; [exact W1|apply Forall_app; split; [exact W2|exact W3]]]|]. intros rest. rewrite !plains_app, <- !app_assoc, Rk; cbn [bind].
    rewrite (proj1 (Hs _)); cbn [bind]. rewrite (proj2 (Hs _)); cbn [bind]. rewrite R3. reflexivity.
  - destruct Hs as [Hl' Hs]. assert (L0 : df_lists d = []) by (destruct Rd as [H|H]; [exact H|destruct (H l Es)]).
    rewrite E1; cbn [bind]. rewrite E2; cbn [bind]. rewrite E3; cbn [bind]. eexists; split; [reflexivity|].
    split; [apply Forall_app; split; [exact Wk|apply Forall_app; split; [exact W1|apply Forall_app; split; [exact W2|exact W3]]]|]. intros rest. rewrite !plains_app, <- !app_assoc, Rk; cbn [bind].
    rewrite (proj1 (proj2 (Hs _)) L0); cbn [bind]. rewrite (proj2 (proj2 (Hs _))); cbn [bind]. rewrite R3. reflexivity.
Qed.

(** The converse: an item that is not readable is an error. *)
Lemma item_unreadable (d : itemdiff LD) l : typed_itemdiff mem inner_typed d def -> (forall id x, In (id, Some x) (df_lists d) -> inner_readable x) ->
  df_lists d <> [] -> store_ids (map fst (df_params d)) (map fst (df_lists d)) = Ok (SNumbers l) ->
  exists ks, write_list_item2 inner_w d meta = Ok ks /\ Forall wf_kval ks /\
    forall rest, read_list_item2 inner_r meta (plains ks ++ rest) = Err.
Proof.
  intros (Sp & Sl & Sr & Hp & Hl & Hr) Ri L0 El.
  assert (Fp : Forall (fun e => p_ok mem (mt_items meta) (fst e) (snd e)) (df_params d)).
  { apply Forall_forall. intros [id p] I. destruct (Hp id p I) as (key & p0 & vt & E & (Ft & Fa & Fw)). cbn [fst snd].
    exists key, vt. rewrite Ft. split; [apply (tf_param _ _ _ (ts_items _ _ _ HM)); exact E|]. auto. }
  assert (Fl : Forall (fun e => l_ok (mt_items meta) inner_p (fst e) (snd e)) (df_lists d)).
  { apply Forall_forall. intros [id o] I. destruct (Hl id o I) as (key & ld & u & E & Ho). cbn [fst snd].
    destruct (tf_list _ _ _ (ts_items _ _ _ HM) _ _ _ _ E) as (t & Ht & Em). exists key. rewrite Em.
    destruct u; (split; [reflexivity|]).
    - destruct o as [x|]; [|exact Logic.I]. exists ld. split; [exact Ht|]. split; [exact Ho|]. apply (Ri id x I).
    - destruct o as [x|]; [|discriminate]. exists x. split; [reflexivity|]. exists ld. split; [exact Ht|]. split; [exact Ho|]. apply (Ri id x I). }
  assert (Fr : Forall (fun e => r_ok (mt_refs meta) (fst e) (snd e)) (df_refs d)).
  { apply Forall_forall. intros [id q] I. destruct (Hr id q I) as (key & v & vt & E & A & W). cbn [fst snd].
    exists key, TString, vt. split; [|auto]. apply (ts_refs _ _ _ HM). eauto. }
  destruct (refs_roundtrip mem (mt_refs meta) refs_range (df_refs d) Sr Fr) as (k3 & E3 & W3 & R3).
  destruct (parts_roundtrip mem (mt_items meta) items_range inner_w inner_r inner_fresh inner_p) with (ps := df_params d) (ls := df_lists d)
    as (s & k1 & k2 & Es & Ws & E1 & E2 & W1 & W2 & Hs); try assumption.
  { intros x t (dd & Ht & Hd & Hx). exact (Hin x dd t Ht Hd Hx). }
  rewrite Es in El. apply Ok_inj in El. subst s. destruct Hs as [-> _].
  destruct (stored_roundtrip _ Ws) as [Wk Rk]. unfold write_list_item2, read_list_item2. rewrite Es; cbn [bind].
  rewrite E1; cbn [bind]. rewrite E2; cbn [bind]. rewrite E3; cbn [bind]. eexists; split; [reflexivity|].
  split; [apply Forall_app; split; [exact Wk|apply Forall_app; split; [exact W1|apply Forall_app; split; [exact W2|exact W3]]]|]. intros rest. rewrite !plains_app, <- !app_assoc, Rk; cbn [bind].
  destruct (params_roundtrip mem (mt_items meta) _ Fp) as (k1' & E1' & _ & _ & R1'). rewrite E1 in E1'. apply Ok_inj in E1'; subst k1'.
  rewrite numbers_loop_app, R1'. cbn [bind]. destruct (df_lists d) as [|[id o] ls]; [congruence|]. cbn [map fst numbers_loop].
  apply Forall_cons_iff in Fl as [(key & Fo) _]. cbn [fst snd] in Fo. unfold step_param_strict at 1.
  destruct (meta_get (mt_items meta) id) as [[k [| |]]|]; try contradiction; reflexivity.
Qed.

Lemma enum_roundtrip (e : enumdiff LD) :
  match e with
  | Delete => True
  | Create prev x => match prev with Some k => u64_range k | None => True end /\ typed_itemdiff mem inner_typed x def
  | Modify x => typed_itemdiff mem inner_typed x def
  end -> match e with Delete => True | Create _ x | Modify x => readable_item inner_readable x end ->
  exists ks, write_list_item inner_w e meta = Ok ks /\ Forall wf_kval ks /\
    forall rest, read_list_item inner_r meta (plains ks ++ rest) = Ok (fresh_enum inner_fresh e, rest).
Proof.
  destruct e as [|prev x|x]; intros H R.
  - exists [KBit false; KBit false]. split; [reflexivity|]. split; [repeat constructor|]. reflexivity.
  - destruct H as [Hp Hx]. destruct (item_roundtrip x Hx R) as (ks & E & W & Rd). cbn [write_list_item]. rewrite E; cbn [bind].
    eexists; split; [reflexivity|]. destruct prev as [k|].
    + split; [repeat (first [exact W|constructor; [first [exact I|apply comp_int_wf; apply i64_range_i64]|]])|]. intros rest.
      cbn [app plains map plain]. unfold read_list_item. rewrite read_bool_bit; cbn [bind]. rewrite read_bool_bit; cbn [bind]. rewrite read_bool_bit; cbn [bind].
      fold (plains ks). rewrite plain_comp_int, read_i64_comp by apply i64_range_i64. cbn [bind]. rewrite u64_i64 by exact Hp. rewrite Rd. reflexivity.
    + split; [repeat (first [exact W|constructor; [first [exact I]|]])|]. intros rest.
      cbn [app plains map plain]. unfold read_list_item. rewrite read_bool_bit; cbn [bind]. rewrite read_bool_bit; cbn [bind]. rewrite read_bool_bit; cbn [bind].
      fold (plains ks). rewrite Rd. reflexivity.
  - destruct (item_roundtrip x H R) as (ks & E & W & Rd). cbn [write_list_item]. rewrite E; cbn [bind].
    eexists; split; [reflexivity|]. split; [constructor; [exact I|exact W]|]. intros rest. cbn [app plains map plain]. unfold read_list_item. rewrite read_bool_bit; cbn [bind].
    fold (plains ks). rewrite Rd. reflexivity.
Qed.
End Item.

Lemma read_n_chunks {A B} (f : list kval -> res (B * list kval)) (g : A -> B) xs kss :
  Forall2 (fun x ks => forall rest, f (plains ks ++ rest) = Ok (g x, rest)) xs kss ->
  forall rest, read_n f (length xs) (plains (concat kss) ++ rest) = Ok (map g xs, rest).
Proof.
  induction 1 as [|x ks xs kss H F IH]; intros rest; [reflexivity|]. cbn [length read_n concat map]. rewrite plains_app, <- app_assoc, H. cbn [bind].
  rewrite IH. reflexivity.
Qed.

Lemma list_roundtrip (d : listdiff LD) def meta : tables_for inner_table def meta ->
  typed_listdiff mem inner_typed d def -> readable_list inner_readable d ->
  exists ks, write_list inner_w d meta = Ok ks /\ Forall wf_kval ks /\
    forall rest, read_list inner_r meta (plains ks ++ rest) = Ok ((map_snd (fresh_enum inner_fresh) (fst d), snd d), rest).
Proof.
  intros HM (N1 & N2 & Len & Nx & F) R. destruct d as [es nx]. unfold readable_list in R. cbn [fst snd] in *.
  assert (H : exists kss, (forall acc, mfold (fun r e => let '(id, diff) := e in v <- write_list_item inner_w diff meta ; Ok (r ++ comp_int (i64 id) :: v)) es acc = Ok (acc ++ concat kss)) /\
    Forall (Forall wf_kval) kss /\ Forall (fun ks => ks <> []) kss /\
    Forall2 (fun e ks => forall rest, ('(id, r) <- read_i64 (plains ks ++ rest) ; '(d, r) <- read_list_item inner_r meta r ; Ok ((u64 id, d), r)) = Ok ((fst e, fresh_enum inner_fresh (snd e)), rest)) es kss).
  { clear Len. induction es as [|[id e] es IH].
    - exists []. split; [intros; cbn; rewrite app_nil_r; reflexivity|]. auto.
    - apply Forall_cons_iff in F as [[Fi Fe] F]. apply Forall_cons_iff in R as [Re R]. cbn [fst snd] in *.
      destruct (IH F R) as (kss & E & W & NE & F2).
      destruct (enum_roundtrip def meta HM N1 N2 e Fe Re) as (ks & Ee & We & Rde).
      exists ((comp_int (i64 id) :: ks) :: kss). split; [|split; [|split]].
      + intros acc. cbn [mfold]. rewrite Ee; cbn [bind]. rewrite E. cbn [concat]. rewrite <- app_assoc. reflexivity.
      + constructor; [|exact W]. constructor; [apply comp_int_wf; apply i64_range_i64|exact We].
      + constructor; [discriminate|exact NE].
      + constructor; [|exact F2]. intros rest. cbn [plains map app]. fold (plains ks). rewrite plain_comp_int, read_i64_comp by apply i64_range_i64.
        cbn [bind]. rewrite Rde. cbn [bind fst snd]. rewrite u64_i64 by exact Fi. reflexivity. }
  destruct H as (kss & E & W & NE & F2). unfold write_list. rewrite E. eexists; split; [reflexivity|].
  split; [constructor; [apply comp_int_wf; apply i64_range_i64|]; constructor; [apply comp_int_wf; apply i64_range_i64|]; apply Forall_concat; exact W|].
  intros rest. cbn [app plains map]. fold (plains (concat kss)). rewrite !plain_comp_int. unfold read_list.
  rewrite read_i64_comp by apply i64_range_i64. cbn [bind]. rewrite read_i64_comp by apply i64_range_i64. cbn [bind].
  assert (Hr : rounds (u64 (i64 (zlen es))) (plains (concat kss) ++ rest) = length es).
  { unfold rounds. rewrite u64_i64 by (unfold u64_range; unfold zlen in *; lia).
    assert (zlen es <= zlen (plains (concat kss) ++ rest)).
    { unfold zlen, plains. rewrite app_length, map_length. apply Forall2_len in F2. rewrite F2. clear -NE. induction NE as [|ks kss H NE IH]; cbn; [lia|].
      rewrite app_length. destruct ks; [congruence|]. cbn [length]. lia. }
    rewrite Z.min_l by lia. unfold zlen. lia. }
  rewrite Hr, (read_n_chunks _ (fun e => (fst e, fresh_enum inner_fresh (snd e))) es kss F2). cbn [bind]. rewrite u64_i64 by exact Nx. reflexivity.
Qed.
End Lists.

Lemma listT_roundtrip mem n : forall (d : ldiffT n) def m, tablesT n def m -> typed_diffT mem n d def -> readableT n d ->
  exists ks, write_listT n d m = Ok ks /\ Forall wf_kval ks /\ forall rest, read_listT n m (plains ks ++ rest) = Ok (freshT n d, rest).
Proof.
  induction n as [|n IH]; intros d def m Ht Hd Hr; [destruct d|]. apply tablesT_for in Ht. cbn [write_listT read_listT typed_diffT readableT] in *.
  destruct (list_roundtrip mem (write_listT n) (read_listT n) (freshT n) (tablesT n) (typed_diffT mem n) (readableT n)) with (d := d) (def := def) (meta := m)
    as (ks & E & W & R); try assumption.
  exists ks. split; [exact E|]. split; [exact W|]. intros rest. rewrite R. reflexivity.
Qed.
