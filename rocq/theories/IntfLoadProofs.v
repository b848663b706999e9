(** C41: loaded documents, and what generated accessors read. *)
From Coq Require Import String.
From Verif Require Import Base CompactionSpec StringCompactionModel StringCompactionProofs LinkedModel LinkedSpec DocModel DiffModel DiffWireModel DiffSpec DiffEditSpec DiffProofs
  ArchiveModel JsonModel JsonSpec JsonProofs ValidModel ValidSpec LoadSpec LoadProofs EmbedSpec EmbedProofs IntfModel IntfSpec IntfProofs.

(* ------------------------------------------------------------------ *)
(** * Lists are there after loading *)

(** every list that changes has a value *)
Definition present (d : hmap (Z * rootvalue)) (s : hmap (rootsab mutlist)) : Prop :=
  forall k i v, In (k, (i, v)) d -> is_list v -> hget k s <> None.

Lemma present_set d s k i v (o : option (rootsab mutlist)) : present d s -> (is_list v -> o <> None) ->
  present (hset k (i, v) d) (match o with Some x => hset k x s | None => s end).
Proof.
  intros H Ho k' i' v' I L. apply in_hset in I as [[-> E]|I].
  - injection E as _ <-. destruct o as [x|]; [rewrite hget_hset_same; discriminate|destruct (Ho L eq_refl)].
  - pose proof (H _ _ _ I L) as P. destruct o as [x|]; [|exact P]. destruct (name_dec k' k) as [->|N]; [rewrite hget_hset_same; discriminate|].
    rewrite hget_hset_other by exact N. exact P.
Qed.

Lemma into_root_value_list v : gives (fun x => is_list (fst x) -> snd x <> None) (into_root_value v).
Proof. destruct v; cbn; intuition congruence. Qed.

Lemma to_root_hash_present iter m : gives (fun x => present (fst x) (snd x)) (to_root_hash iter m).
Proof.
  unfold to_root_hash. apply (gives_mfold (fun x => present (fst x) (snd x))).
  - intros [d s] [k [i v]] _ M. eapply gives_bind; [apply into_root_value_list|]. intros [w o] H. cbn [fst snd] in *. apply present_set; assumption.
  - intros k i v [].
Qed.

Lemma construct_present iter r vec : present (ro_default r) (ro_sabun r) -> (forall k v o, In (k, (v, o)) vec -> is_list v -> o <> None) ->
  gives (fun r => present (ro_default r) (ro_sabun r)) (construct_root iter r vec).
Proof.
  intros M H. unfold construct_root.
  assert (Hs : forall k v o, In (k, (v, o)) (sort_by_name vec) -> is_list v -> o <> None).
  { intros k v o I. apply (H k v o). eapply Permutation_in; [apply sort_perm|exact I]. }
  assert (G : forall l d s, present d s -> (forall k v o, In (k, (v, o)) l -> is_list v -> o <> None) ->
    let '(d', s') := fold_left (fun st e => let '(default, sabun) := st in let '(nm, (value, sab)) := e in
                 (hset nm (zlen default, value) default, match sab with Some sab => hset nm sab sabun | None => sabun end)) l (d, s) in present d' s').
  { induction l as [|[k [v o]] l IH]; intros d s Md Hl; cbn [fold_left]; [exact Md|]. apply IH; [|intros; eapply Hl; [right|]; eassumption].
    apply present_set; [exact Md|]. apply (Hl k v o); left; reflexivity. }
  specialize (G _ _ _ M Hs). destruct (fold_left _ (sort_by_name vec) _) as [d s]. unfold new_root. apply gives_any. intros T. exact G.
Qed.

Lemma files_present addr iter parse files : gives (fun r => present (ro_default r) (ro_sabun r)) (files_to_root addr iter parse files).
Proof.
  unfold files_to_root. set (items := map (fun f => json_file_to_rust addr iter parse (fst f) (snd f)) files).
  set (Q := fun it => match it with ARoot r => present (ro_default r) (ro_sabun r) | AItem _ v o => is_list v -> o <> None end).
  assert (F : forall x, In x items -> gives Q x).
  { intros x Ix. apply in_map_iff in Ix as ([path content] & <- & _). unfold json_file_to_rust. destruct (eqb_bytes _ _).
    - apply gives_any. intros v. unfold json_root_to_rust. destruct v; try exact I. apply gives_bind with (P := fun r => present (ro_default r) (ro_sabun r)); [|intros r H; exact H].
      apply gives_any. intros o. unfold into_root_obj. destruct (_ || _); [exact I|]. eapply gives_bind; [apply to_root_hash_present|].
      intros [d s] M. unfold new_root. apply gives_any. intros T. exact M.
    - destruct (json_name _) as [[nm vt|]|]; try exact I. apply gives_any. intros v. apply gives_any. intros w.
      eapply gives_bind; [apply into_root_value_list|]. intros [u o] H. exact H. }
  destruct (existsb is_panic items); [exact I|]. destruct (existsb _ items); [exact I|].
  destruct (take_root items) as [[r others]|] eqn:Et; [|exact I]. cbn [ok_or bind].
  assert (T : present (ro_default r) (ro_sabun r) /\ forall x, In x others -> In x items).
  { clear - Et F. revert r others Et. induction items as [|x items IH]; intros r others; cbn [take_root]; [discriminate|].
    assert (Go : (match take_root items with Some (r, others) => Some (r, x :: others) | None => None end) = Some (r, others) ->
      present (ro_default r) (ro_sabun r) /\ forall y, In y others -> In y (x :: items)).
    { destruct (take_root items) as [[r' o']|]; [|discriminate]. intros E; injection E as -> <-. destruct (IH ltac:(intros; apply F; right; assumption) r o' eq_refl) as [A B].
      split; [exact A|]. intros y [->|Iy]; [left; reflexivity|right; auto]. }
    pose proof (F x (or_introl eq_refl)) as Fx. destruct x as [[r0|nm v s]| |]; auto. intros E; injection E as -> <-. split; [exact Fx|]. intros y Iy; right; exact Iy. }
  destruct T as [Tr To]. eapply gives_bind with (P := fun vec => forall k v o, In (k, (v, o)) vec -> is_list v -> o <> None).
  - unfold other_items. eapply gives_impl; [apply (gives_mmap (fun _ e => is_list (fst (snd e)) -> snd (snd e) <> None))|].
    + intros x Ix. apply To, F in Ix. destruct x as [[r0|nm v s]| |]; cbn; auto.
    + intros vec G k v o I0. clear - G I0. induction G as [|x e l vec H G IH]; [destruct I0|]. destruct I0 as [->|I0]; auto.
  - intros vec Hv. apply construct_present; assumption.
Qed.

Lemma few_def n : forall d e, is_def n d e -> wf_defT n e -> def_few (fun n => n <= 2 ^ 62) d -> few_defT n e.
Proof.
  induction n as [|n IH]; intros d e; [intros []|]. cbn [is_def wf_defT few_defT]. intros (Fm & Er & _) (Nm & Nr & Wi) Hf.
  inversion Hf as [d0 Hf1 Hf2 Hf3 Hf4 Ed]; subst d. cbn [undef] in *.
  split; [apply numbered_few; [exact Nm|]; eapply Z.le_trans; [|exact Hf1]; apply Z.eq_le_incl, eq_sym, (forall2_zlen _ _ _ Fm)|].
  split; [apply numbered_few; [exact Nr|]; eapply Z.le_trans; [|exact Hf2]; apply Z.eq_le_incl; rewrite Er; reflexivity|].
  intros key id d' u G. apply hget_in in G. destruct (forall2_in_r _ _ _ _ Fm G) as ([k [i v]] & I & _ & _ & M). cbn in M.
  destruct v as [| |d1 u1]; try destruct M. eapply IH; [exact H|rewrite Forall_forall in Wi; apply (Wi _ G)|apply (Hf4 _ _ _ _ I)].
Qed.

Lemma loaded_few addr mem iter parse files r n (def : rootdef n) : iterates iter -> (forall s, mem (addr s) = s) ->
  all_files (everywhere rust_node) parse files -> all_files (everywhere unique_node) parse files ->
  files_to_root addr iter parse files = Ok r -> is_rootdef (ro_default r) def -> wf_rootdef def -> few_rootdef def.
Proof.
  intros It Hm R U E D (_ & _ & W).
  assert (S : ro_sound (wf_param mem) wf_ref (list_ok false) (fun n => n <= 2 ^ 62) r).
  { apply (loaded_sound addr mem iter parse files r false It Hm); [|exact E]. intros path content v I Ev. pose proof (R _ _ _ I Ev) as Rv. pose proof (U _ _ _ I Ev) as Uv.
    eapply everywhere_impl; [|apply (everywhere_and _ _ _ Rv Uv)]. unfold ok_node. cbn. intuition discriminate. }
  destruct S as (Sd & _). intros key id d u G. apply hget_in in G. destruct (forall2_in_r _ _ _ _ D G) as ([k [i v]] & I & _ & _ & M). cbn in M.
  destruct v as [| | |d1 u1]; try destruct M. rewrite Forall_forall in W. eapply few_def; [exact H|apply (W _ G)|apply (Sd _ _ _ I)].
Qed.

Lemma loaded_there addr iter parse files r n (def : rootdef n) (s : sabun n) :
  files_to_root addr iter parse files = Ok r -> is_rootdef (ro_default r) def -> is_sabun (ro_sabun r) s -> lists_there def s.
Proof.
  intros E D S key id d u G. pose proof (files_present addr iter parse files) as P. rewrite E in P. cbn in P.
  apply hget_in in G. destruct (forall2_in_r _ _ _ _ D G) as ([k [i v]] & I & Ek & _ & M). cbn in Ek, M. subst k.
  destruct v as [| | |d1 u1]; try destruct M. specialize (P _ _ _ I Logic.I).
  pose proof (forall2_hget (is_rootsab (is_mlist n)) _ _ key S) as Hs. destruct (hget key (ro_sabun r)); [|destruct (P eq_refl)].
  destruct (hget key s); [discriminate|destruct Hs].
Qed.

(* ------------------------------------------------------------------ *)
(** * Reading *)

Lemma unwrapped_param vt p : allows_param vt p -> unwrapped vt (Some (contents p)) = Ok (contents p).
Proof. destruct p as [q|q|q|q|q|q|q]; destruct q, vt; cbn; intros H; try reflexivity; destruct H; discriminate. Qed.
Lemma unwrapped_refuse vt p : ~ allows_param vt p -> unwrapped vt (Some (contents p)) = Panic.
Proof. destruct p as [q|q|q|q|q|q|q]; destruct q, vt; cbn; intros H; try reflexivity; destruct H; auto. Qed.
Lemma acceptable_allows {T} vt (q : qv T) : acceptable vt (qv_type_of q) = true <-> allows vt q.
Proof. destruct q, vt; cbn; split; auto; try discriminate; intros []; discriminate. Qed.

Lemma read_item_ok mem {D L} (inner : L -> D -> Prop) it (d : ldef D) key id p0 vt : typed_item mem inner it d ->
  hget key (ld_members d) = Some (id, DParam p0 vt) -> allows_param vt p0 ->
  exists p, value_of it d key p /\ read_item (type_of p0) vt it d key = Ok (contents p).
Proof.
  intros (_ & _ & T & _) G A. unfold read_item, item_param, value_of.
  destruct (hget key (it_values it)) as [v|] eqn:Gv.
  - pose proof (T _ _ Gv) as Tv. destruct v as [p|c|l]; cbn in Tv.
    + destruct Tv as (i & p1 & vt1 & G1 & (F1 & F2 & _)). pose proof (eq_trans (eq_sym G) G1) as G2. injection G2 as <- <- <-.
      exists p. split; [left; reflexivity|]. cbn [get_as]. rewrite (proj2 (eqb_type_iff _ _) F1). apply unwrapped_param, acceptable_iff, F2.
    + destruct Tv as (i & d' & G1). congruence.
    + destruct Tv as (i & d' & u & G1 & _). congruence.
  - exists p0. split; [right; eauto|]. unfold item_param_def. rewrite G. cbn [get_as]. rewrite (proj2 (eqb_type_iff _ _) eq_refl). apply unwrapped_param, A.
Qed.

Lemma read_root_ok mem n (s : sabun n) (def : rootdef n) key id p0 vt : typed_root mem s def ->
  hget key def = Some (id, RVParam p0 vt) -> allows_param vt p0 ->
  exists p, root_value_of s def key p /\ read_root (type_of p0) vt s def key = Ok (contents p).
Proof.
  intros (_ & T) G A. unfold read_root, root_param, root_value_of.
  destruct (hget key s) as [v|] eqn:Gv.
  - pose proof (T _ _ Gv) as Tv. destruct v as [p|l].
    + destruct Tv as (i & p1 & vt1 & G1 & (F1 & F2 & _)). rewrite G in G1. injection G1 as <- <- <-.
      exists p. split; [left; reflexivity|]. cbn [get_as]. rewrite (proj2 (eqb_type_iff _ _) F1). apply unwrapped_param, acceptable_iff, F2.
    + destruct Tv as (i & d' & u & G1 & _). congruence.
  - exists p0. split; [right; eauto|]. unfold root_param_def. rewrite G. cbn [get_as]. rewrite (proj2 (eqb_type_iff _ _) eq_refl). apply unwrapped_param, A.
Qed.

Lemma read_ref_ok mem {D L R} (inner : L -> D -> Prop) (tables : hmap (hmap R)) it (d : ldef D) key id q0 vt q r : typed_item mem inner it d ->
  hget key (ld_refs d) = Some (id, (q0, vt)) -> allows vt q0 -> ref_of it d key q -> row_of tables key q r ->
  read_ref tables vt it d key = Ok r.
Proof.
  intros (_ & _ & _ & T) G A F W. unfold read_ref, item_ref, item_ref_id.
  assert (E : match hget key (it_refs it) with Some q => Some q | None => match hget key (ld_refs d) with Some (_, (q, _)) => Some q | None => None end end = Some q /\ allows vt q).
  { destruct F as [F|(F & i & vt1 & F1)]; rewrite F.
    - split; [reflexivity|]. destruct (T _ _ F) as (i & v & vt1 & G1 & Ac & _). rewrite G in G1. injection G1 as <- <- <-. apply acceptable_allows, Ac.
    - rewrite F1. split; [reflexivity|]. rewrite G in F1. injection F1 as <- <- <-. exact A. }
  destruct E as [-> Al]. destruct q as [i| |], r as [row| |]; cbn in W; try contradiction.
  - destruct W as (rows & -> & ->). reflexivity.
  - cbn. destruct vt; cbn in *; try reflexivity; destruct Al; discriminate.
  - cbn. destruct vt; cbn in *; try reflexivity; destruct Al; discriminate.
Qed.

Lemma read_enum_ok mem {D L R} (inner : L -> D -> Prop) iter (tables : hmap (hmap R)) (it : item L) (d : ldef D) key id rows row : iterates iter ->
  typed_item mem inner it d -> it_refs it = [(key, Val id)] -> hget key tables = Some rows -> hget id rows = Some row ->
  read_enum iter tables it d = Ok (key, row).
Proof.
  intros It (_ & _ & _ & T) E Gt Gr. unfold read_enum, item_enum.
  assert (P : iter _ (it_refs it) = [(key, Val id)]).
  { pose proof (It _ (it_refs it)) as P. rewrite E in P |- *. apply Permutation_sym, Permutation_length_1_inv in P. exact P. }
  rewrite P. cbn. unfold item_ref, item_ref_id.
  assert (G : hget key (it_refs it) = Some (Val id)) by (rewrite E; cbn; rewrite eqb_bytes_refl; reflexivity).
  rewrite G, Gt, Gr. cbn. destruct (T _ _ G) as (i & v & vt & G1 & _). rewrite G1. reflexivity.
Qed.

Lemma read_list_ok mem n (it : item (mlistT n)) (d : ldef (defT n)) key id d' u : typed_item mem (typedT mem n) it d ->
  hget key (ld_members d) = Some (id, DMil d' u) ->
  read_list u (item_list it d key (empty_list n)) = Ok (match hget key (it_values it) with Some (LMil o) => o | _ => Some (empty_list n d') end).
Proof.
  intros (_ & _ & T & _) G. unfold item_list. rewrite G. destruct (hget key (it_values it)) as [[p|c|[l|]]|] eqn:Gv; try reflexivity.
  cbn. destruct (T _ _ Gv) as (i & d1 & u1 & G1 & ->). pose proof (eq_trans (eq_sym G) G1) as G2. injection G2 as <- <- ->. reflexivity.
Qed.

Lemma read_root_list_ok mem n (s : sabun n) (def : rootdef n) key id d u : typed_root mem s def -> lists_there def s ->
  hget key def = Some (id, RVMList d u) -> exists o, hget key s = Some (RMut o) /\ read_list u (root_list s def key) = Ok o.
Proof.
  intros (_ & T) Th G. unfold root_list. rewrite G. pose proof (Th _ _ _ _ G) as P. destruct (hget key s) as [v|] eqn:Gv; [|destruct (P eq_refl)].
  pose proof (T _ _ Gv) as Tv. destruct v as [p|o]; [destruct Tv as (i & p0 & vt & G1 & _); congruence|]. exists o. split; [reflexivity|].
  destruct o as [l|]; [reflexivity|]. destruct Tv as (i & d1 & u1 & G1 & ->). rewrite G in G1. injection G1 as <- <- ->. reflexivity.
Qed.

(* ------------------------------------------------------------------ *)
(** * Writing *)

Lemma write_item mem {D L} (inner : L -> D -> Prop) it (d : ldef D) key id p0 vt t a new : typed_item mem inner it d ->
  hget key (ld_members d) = Some (id, DParam p0 vt) -> type_of p0 = t ->
  exists p, value_of it d key p /\
    let '(it', r) := item_write it d key t a new in
    r = Some (qv_map (fun _ => tt) (contents p)) /\ only_value key it it' /\
    hget key (it_values it') = Some (LParam (overwrite t a new p)).
Proof.
  intros T G Et. pose proof (typed_kinds mem inner it d T) as K. destruct T as (_ & _ & T & _). unfold item_write, item_param_mut, value_of.
  destruct (hget key (it_values it)) as [v|] eqn:Gv.
  - destruct (K _ _ _ _ _ Gv G) as [p ->]. exists p. split; [left; reflexivity|]. destruct (T _ _ Gv) as (i & p1 & vt1 & G1 & (F1 & _)).
    rewrite G in G1. injection G1 as <- <- <-. rewrite (proj2 (eqb_type_iff _ _) (eq_trans F1 Et)). split; [reflexivity|]. split; [|apply hget_hset_same].
    split; [reflexivity|]. intros k Hk. apply hget_hset_other, Hk.
  - rewrite G. exists p0. split; [right; eauto|]. rewrite (proj2 (eqb_type_iff _ _) Et). split; [reflexivity|]. split; [|apply hget_hset_same].
    split; [reflexivity|]. intros k Hk. cbn [it_values]. rewrite !hget_hset_other by exact Hk. reflexivity.
Qed.

(* ------------------------------------------------------------------ *)
(** * Calls that end the program *)

Lemma item_do_total mem n (it : item (mlistT n)) d o : typed_item mem (typedT mem n) it d -> exists x, item_do it d o = Ok x.
Proof.
  intros T. destruct o as [key p|key t a new|key a len|key q|key id|key]; cbn [item_do]; try (eexists; reflexivity).
  - destruct (set_item it d key p (typed_kinds mem _ it d T)) as (it' & b & E & _). eauto.
  - destruct (item_write it d key t a new). eauto.
  - destruct (item_open it d key (empty_list n)). eauto.
Qed.

Lemma list_run_total mem n : forall st d l, few_defT n d -> typedT mem n l d -> inserts st = false -> exists x, list_run n st d l = Ok x.
Proof.
  induction n as [|n IH]; intros st d l; [destruct d|]. intros Few T Hi. destruct Few as (_ & _ & Few). pose proof T as (_ & _ & _ & _ & _ & _ & It).
  destruct st as [o|id o|id key st]; cbn [list_run inserts] in *.
  - destruct o; try discriminate; eexists; reflexivity.
  - destruct (lookup id (fst l)) as [it|] eqn:G; [|eauto]. destruct (item_do_total mem n it d o (It _ _ G)) as [[it' b] E].
    match goal with |- context [item_do ?x ?y ?z] => replace (item_do x y z) with (Ok (it', b)) by (symmetry; exact E) end. cbn. eauto.
  - destruct (lookup id (fst l)) as [it|] eqn:G; [|eauto]. pose proof (It _ _ G) as Ti.
    destruct (item_open it d key (empty_list n)) as [it1 r] eqn:Eo. destruct r as [[d' l1]|]; [|eauto].
    unfold item_open in Eo. destruct (hget key (ld_members d)) as [[i [p0 vt|d0|d0 u]]|] eqn:Gd; try discriminate.
    assert (Hl : d0 = d' /\ typedT mem n l1 d0).
    { destruct (hget key (it_values it)) as [[p|c|[l0|]]|] eqn:Gv; injection Eo as _ <- <-; (split; [reflexivity|]);
      try (apply empty_typed, (Few _ _ _ _ Gd)). destruct Ti as (_ & _ & T3 & _). destruct (T3 _ _ Gv) as (i' & d1 & u' & G1 & T4).
      pose proof (eq_trans (eq_sym Gd) G1) as G2. injection G2 as <- <- <-. exact T4. }
    destruct Hl as [<- Hl]. destruct (IH st d0 l1 (Few _ _ _ _ Gd) Hl Hi) as [[l2 b] ->]. cbn. eauto.
Qed.

Lemma root_run_total mem n (s : sabun n) (def : rootdef n) o : few_rootdef def -> typed_root mem s def -> root_inserts o = false ->
  exists x, root_run def s o = Ok x.
Proof.
  intros Few T Hi. destruct o as [key p|key t a new|key a len|key|key st]; cbn [root_run root_inserts] in *; try (eexists; reflexivity).
  - destruct (root_write s def key t a new). eauto.
  - destruct (root_open s def key (empty_list n)). eauto.
  - destruct (root_open s def key (empty_list n)) as [s1 r] eqn:Eo. destruct (root_open_typed mem _ _ _ _ _ _ Few T Eo) as [_ H].
    destruct r as [[d l]|]; [|eauto]. destruct (H _ _ eq_refl) as (id & u & G & Tl & _).
    destruct (list_run_total mem n st d l (Few _ _ _ _ G) Tl Hi) as [[l2 b] ->]. cbn. eauto.
Qed.

Lemma insert_total {L} (l : mlist (item L)) : Forall (fun id => id < snd l) (ids (fst l)) -> snd l + 1 < 2 ^ 64 -> zlen (fst l) + 1 < 2 ^ 62 ->
  list_do l LInsertFirst = Ok (((snd l, Item [] []) :: fst l, snd l + 1), true) /\
  list_do l LInsertLast = Ok ((fst l ++ [(snd l, Item [] [])], snd l + 1), true).
Proof.
  intros F H1 H2. unfold list_do. destruct l as [l next]. cbn [fst snd] in *.
  assert (C : (next + 1 <? 2 ^ 64) && negb (has next l) && (zlen l + 1 <? 2 ^ 62) = true).
  { rewrite (proj2 (Z.ltb_lt _ _) H1), (proj2 (Z.ltb_lt _ _) H2). destruct (has next l) eqn:E; [|reflexivity].
    apply has_in in E. rewrite Forall_forall in F. specialize (F _ E). lia. }
  rewrite C. split; reflexivity.
Qed.
