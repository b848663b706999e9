(** Proofs about saved objects that are moved to another version. *)
From Verif Require Import Base PhaseModel HistModel RemoveModel FolderModel FolderSpec FolderProofs CompactionModel CompactionSpec StringCompactionModel StringCompactionProofs LinkedModel LinkedSpec LinkedProofs DocModel DiffModel DiffWireModel DiffSpec DiffProofs DiffEditSpec DiffEndProofs
  ArchiveModel JsonModel JsonSpec JsonProofs ValidModel ValidSpec ValidProofs LoadSpec LoadProofs EmbedSpec EmbedProofs IntfModel IntfSpec IntfProofs IntfLoadProofs
  SizeSpec SizeProofs WholeSpec GrownProofs PlaceProofs AdjustModel AdjustSpec AdjustProofs SavedModel.

(* ------------------------------------------------------------------ *)
(** * The same document in both models *)

Lemma traverse_all {A B} (f : A -> option B) l l' : Forall2 (fun a b => f a = Some b) l l' -> traverse f l = Some l'.
Proof. induction 1 as [|a b l l' H F IH]; cbn; [reflexivity|]. now rewrite H, IH. Qed.

Lemma forall2_with {A B} (R : A -> B -> Prop) l l' : Forall2 R l l' -> Forall2 (fun a b => R a b /\ In b l') l l'.
Proof.
  induction 1 as [|a b l l' H F IH]; constructor; [split; [exact H|left; reflexivity]|]. eapply forall2_impl; [|exact IH]. intros x y (Hx & I). split; [exact Hx|right; exact I].
Qed.

Lemma def_of_is n : forall d e, is_def n d e -> def_of n d = Some e.
Proof.
  induction n as [|n IH]; intros d e; [intros []|]. cbn [is_def def_of]. intros (F & E1 & E2 & E3 & E4).
  rewrite (traverse_all _ _ (ld_members e)); [cbn [option_map]; rewrite E1, E2, E3, E4; destruct e; reflexivity|].
  eapply forall2_impl; [|exact F]. intros [k [i v]] [k' [i' w]]. cbn [fst snd]. intros (<- & <- & M).
  destruct v, w; cbn in M; try contradiction; cbn [defval_of].
  - destruct M as (<- & <-). reflexivity.
  - rewrite (IH _ _ M). reflexivity.
  - destruct M as (M & <-). rewrite (IH _ _ M). reflexivity.
Qed.
Lemma rootdef_of_is n d (e : rootdef n) : is_rootdef d e -> rootdef_of n d = Some e.
Proof.
  intros F. apply traverse_all. eapply forall2_impl; [|exact F]. intros [k [i v]] [k' [i' w]]. cbn [fst snd]. intros (<- & <- & M).
  destruct v, w; cbn in M; try contradiction; cbn [rootval_of]; try reflexivity.
  - destruct M as (<- & <-). reflexivity.
  - destruct M as (M & <-). rewrite (def_of_is _ _ _ M). reflexivity.
Qed.

Lemma traverse_inv {A B} (f : A -> option B) l : forall l', traverse f l = Some l' -> Forall2 (fun a b => f a = Some b) l l'.
Proof.
  induction l as [|a l IH]; cbn; intros l' E; [apply Some_inj in E; subst; constructor|]. destruct (f a) as [b|] eqn:Ea; [|discriminate]. destruct (traverse f l) as [m|]; [|discriminate].
  apply Some_inj in E; subst. constructor; [exact Ea|apply IH; reflexivity].
Qed.

Lemma is_def_of n : forall d e, def_of n d = Some e -> is_def n d e.
Proof.
  induction n as [|n IH]; intros d e; [discriminate|]. cbn [is_def def_of]. change (defT (S n)) with (ldef (defT n)) in e. destruct (traverse _ _) as [ms|] eqn:Et; [|discriminate]. cbn [option_map].
  intros E. apply Some_inj in E; subst e. cbn [ld_members ld_refs ld_enum ld_old ld_ref_old]. split; [|auto]. apply traverse_inv in Et. eapply forall2_impl; [|exact Et].
  intros [k [i v]] b. cbn [fst snd]. destruct v as [p vt|d'|d' u]; cbn [defval_of option_map].
  - intros E; apply Some_inj in E; subst b. cbn. auto.
  - destruct (def_of n d') as [e'|] eqn:E'; [|discriminate]. intros E; apply Some_inj in E; subst b. cbn. auto.
  - destruct (def_of n d') as [e'|] eqn:E'; [|discriminate]. intros E; apply Some_inj in E; subst b. cbn. auto.
Qed.
Lemma is_rootdef_of n d (e : rootdef n) : rootdef_of n d = Some e -> is_rootdef d e.
Proof.
  intros E. apply traverse_inv in E. eapply forall2_impl; [|exact E]. intros [k [i v]] b. cbn [fst snd]. destruct v as [p vt| | |d' u]; cbn [rootval_of option_map].
  1-3: intros E0; apply Some_inj in E0; subst b; cbn; auto.
  destruct (def_of n d') as [e'|] eqn:E'; [|discriminate]. intros E0; apply Some_inj in E0; subst b. cbn. pose proof (is_def_of _ _ _ E'). auto.
Qed.

Lemma is_def_wf n : forall d e, is_def n d e -> well_numbered d -> wf_defT n e.
Proof.
  induction n as [|n IH]; intros d e; [intros []|]. cbn [is_def wf_defT]. intros (F & Er & _) W. inversion W as [d0 Nm Nr WC WM Ed]; subst d. cbn [undef] in *. split; [|split].
  - eapply (forall2_numbered (fun _ _ => True)); [|exact Nm]. eapply forall2_impl; [|exact F]. cbn. intuition.
  - rewrite Er in Nr. exact Nr.
  - apply Forall_forall. intros [k [i w]] I. cbn [fst snd]. destruct (forall2_in_r _ _ _ _ F I) as ([k' [i' v]] & Iv & _ & _ & M). cbn in M. destruct w as [| |e' u]; try exact Logic.I.
    destruct v as [| |d' u']; try contradiction. destruct M as (M & _). eapply IH; [exact M|eapply WM; exact Iv].
Qed.

(** ** Without constant lists *)
Definition no_cil_value {L} (inner : L -> Prop) (v : lval L) : Prop :=
  match v with LCil _ => False | LMil (Some l) => inner l | _ => True end.
Definition no_cil_list {L} (inner : L -> Prop) (l : mlist (item L)) : Prop :=
  forall id it, In (id, it) (fst l) -> forall key v, In (key, v) (it_values it) -> no_cil_value inner v.
Fixpoint no_cilT (n : nat) : mlistT n -> Prop := match n with O => fun _ => True | S n => no_cil_list (no_cilT n) end.
Definition no_cil_root {n} (s : sabun n) : Prop := forall key l, In (key, RMut (Some l)) s -> no_cilT n l.

Lemma mlist_of_is n : forall l l', is_mlist n l l' -> no_cilT n l' -> mlist_of n l = Some l'.
Proof.
  induction n as [|n IH]; intros l l'; [intros []|]. cbn [is_mlist no_cilT mlist_of]. change (mlistT (S n)) with (mlist (item (mlistT n))) in l'.
  intros (F & Es) N. rewrite (traverse_all _ _ (fst l')); [cbn [option_map]; rewrite <- Es; destruct l'; reflexivity|].
  eapply forall2_impl; [|exact (forall2_with _ _ _ F)]. intros [i c] [i' it]. cbn [fst snd]. intros ((<- & Fv & Er) & I). unfold item_of.
  rewrite (traverse_all _ _ (it_values it)); [cbn [option_map]; rewrite Er; destruct it; reflexivity|].
  eapply forall2_impl; [|exact (forall2_with _ _ _ Fv)]. intros [k v] [k' w]. cbn [fst snd]. intros ((<- & M) & Iv). specialize (N _ _ I _ _ Iv).
  destruct v as [p|x|[x|]], w as [q|t|[y|]]; cbn in M, N; try contradiction; cbn [value_of]; try reflexivity.
  - subst. reflexivity.
  - rewrite (IH _ _ M N). reflexivity.
Qed.
Lemma sabun_of_is n s (s' : sabun n) : is_sabun s s' -> no_cil_root s' -> sabun_of n s = Some s'.
Proof.
  intros F N. apply traverse_all. eapply forall2_impl; [|exact (forall2_with _ _ _ F)]. intros [k v] [k' w]. cbn [fst snd]. intros ((<- & M) & I).
  destruct v as [p|[x|]], w as [q|[y|]]; cbn in M; try contradiction; cbn [rootsab_of]; try reflexivity.
  - subst. reflexivity.
  - rewrite (mlist_of_is _ _ _ M (N _ _ I)). reflexivity.
Qed.

Lemma typed_no_cil mem n : forall (l : mlistT n) d e, typedT mem n l e -> is_def n d e -> def_valid true d -> no_cilT n l.
Proof.
  induction n as [|n IH]; intros l d e; [intros []|]. cbn [typedT is_def no_cilT]. change (mlistT (S n)) with (mlist (item (mlistT n))) in l.
  intros (N & _ & _ & _ & _ & _ & T) (F & _) V id it I key v Iv. inversion V as [d0 _ _ _ V4 _ _ V7 Ed]; subst d. cbn [undef] in F.
  assert (El : lookup id (fst l) = Some it) by (apply in_lookup; [exact N|exact I]). destruct (T id it El) as (Nv & _ & Tv & _).
  specialize (Tv key v (in_hget _ _ _ Nv Iv)). destruct v as [p|t|[x|]]; cbn; try exact Logic.I; cbn [typed_value] in Tv.
  - destruct Tv as (i & d & G). apply DiffProofs.hget_in in G. destruct (forall2_in_r _ _ _ _ F G) as ([k [j w]] & Iw & _ & _ & M). cbn in M. destruct w; try contradiction.
    specialize (V4 _ _ _ Iw). discriminate.
  - destruct Tv as (i & d & u & G & Ty). apply DiffProofs.hget_in in G. destruct (forall2_in_r _ _ _ _ F G) as ([k [j w]] & Iw & _ & _ & M). cbn in M. destruct w as [| |d1 u1]; try contradiction.
    destruct M as (M & <-). eapply IH; [exact Ty|exact M|]. eapply V7; exact Iw.
Qed.

Lemma typed_no_cil_root mem n r (s : sabun n) def : root_valid r false -> is_rootdef (ro_default r) def -> typed_root mem s def -> no_cil_root s.
Proof.
  intros (_ & V) D (N & T) key l I. destruct (T key _ (in_hget _ _ _ N I)) as (id & d & u & G & Ty). apply DiffProofs.hget_in in G.
  destruct (forall2_in_r _ _ _ _ D G) as ([k [j w]] & Iw & Ek & _ & M). cbn in Ek, M. destruct w as [| | |d1 u1]; try contradiction. destruct M as (M & _).
  destruct (V _ _ _ Iw) as (Vd & _). eapply typed_no_cil; eassumption.
Qed.

(** what is the same has none either *)
Lemma same_no_cil ord nx n : forall a b : mlistT n, sameT ord nx n a b -> cleanT n a -> no_cilT n b -> no_cilT n a.
Proof.
  induction n as [|n IH]; intros a b; [intros; exact Logic.I|]. cbn [sameT cleanT no_cilT]. change (mlistT (S n)) with (mlist (item (mlistT n))) in a, b.
  intros (_ & S & _) (N & C) Hb id it I key v Iv. assert (El : lookup id (fst a) = Some it) by (apply in_lookup; assumption). specialize (S id). rewrite El in S.
  destruct (lookup id (fst b)) as [it'|] eqn:Eb; [|contradiction]. destruct S as (Sv & _). destruct (C id it El) as (Nv & _ & Ci). specialize (Sv key). rewrite (in_hget _ _ _ Nv Iv) in Sv.
  destruct (hget key (it_values it')) as [w|] eqn:Ew; [|contradiction]. cbn in Sv. apply lookup_in' in Eb. apply DiffProofs.hget_in in Ew. specialize (Hb _ _ Eb _ _ Ew).
  destruct v as [p|t|[x|]], w as [q|t'|[y|]]; cbn in Sv, Hb |- *; try contradiction; try exact Logic.I. eapply IH; [exact Sv| |exact Hb]. eapply Ci. apply in_hget; [exact Nv|exact Iv].
Qed.
Lemma same_no_cil_root ord nx n (a b : sabun n) : same_root ord nx a b -> clean_root a -> no_cil_root b -> no_cil_root a.
Proof.
  intros S (N & C) Hb key l I. specialize (S key). pose proof (in_hget _ _ _ N I) as G. rewrite G in S. destruct (hget key b) as [[q|[y|]]|] eqn:Eb; cbn in S; try contradiction.
  apply DiffProofs.hget_in in Eb. eapply same_no_cil; [exact S|exact (C _ _ G)|exact (Hb _ _ Eb)].
Qed.

(** ** Objects that can be moved *)
Lemma plain_changeable n : forall l : mlistT n, cleanT n l -> no_cilT n l ->
  NoDup (map fst (fst (plain_list n l))) /\ forall id c, In (id, c) (fst (plain_list n l)) -> changeable c.
Proof.
  induction n as [|n IH]; intros l; [destruct l|]. cbn [cleanT no_cilT plain_list fst]. change (mlistT (S n)) with (mlist (item (mlistT n))) in l. intros (N & C) Nc. split.
  - rewrite map_map. exact N.
  - intros id c I. apply in_map_iff in I as ([i it] & E & I). cbn [fst snd] in E. apply pair_equal_spec in E as (-> & <-).
    assert (El : lookup id (fst l) = Some it) by (apply in_lookup; assumption). destruct (C id it El) as (Nv & _ & Ci).
    assert (Vs : forall key v, In (key, v) (ci_values (plain_item_of (plain_list n) it)) ->
      (exists p, v = VParam p) \/ v = VMil None \/ exists x, v = VMil (Some (plain_list n x)) /\ cleanT n x /\ no_cilT n x).
    { intros key v Iv. cbn [plain_item_of ci_values] in Iv. apply in_map_iff in Iv as ([k w] & E & Iw). cbn [fst snd] in E. apply pair_equal_spec in E as (-> & <-).
      specialize (Nc _ _ I _ _ Iw). destruct w as [p|t|[x|]]; cbn in Nc |- *; [left; eauto|contradiction|right; right|right; left; reflexivity].
      exists x. split; [reflexivity|]. split; [|exact Nc]. apply (Ci key). apply in_hget; assumption. }
    assert (Vl : forall key l0 next, In (key, VMil (Some (l0, next))) (ci_values (plain_item_of (plain_list n) it)) ->
      NoDup (map fst l0) /\ forall id c, In (id, c) l0 -> changeable c).
    { intros key l0 next Iv. destruct (Vs _ _ Iv) as [(p & E)|[E|(x & E & Cx & Nx)]]; try discriminate E. injection E as E. destruct (IH x Cx Nx) as (A & B). rewrite <- E in A, B. split; assumption. }
    split.
    + constructor.
      * intros key l0 c1 Iv. destruct (Vs _ _ Iv) as [(p & E)|[E|(x & E & _)]]; discriminate E.
      * intros key l0 next Iv. apply (Vl _ _ _ Iv).
      * intros key l0 next id1 c1 Iv I1. apply (proj2 (Vl _ _ _ Iv) _ _ I1).
    + intros c' key l0 In' Iv. remember (plain_item_of (plain_list n) it) as c eqn:Ec. destruct In' as [c|c k l1 c1 c' I1 _ _|c k l1 next i1 c1 c' I1 I2 In2]; subst c.
      * destruct (Vs _ _ Iv) as [(p & E)|[E|(x & E & _)]]; discriminate E.
      * destruct (Vs _ _ I1) as [(p & E)|[E|(x & E & _)]]; discriminate E.
      * destruct (proj2 (Vl _ _ _ I1) _ _ I2) as (_ & H). eapply H; [exact In2|exact Iv].
Qed.

Lemma plain_get n (s : sabun n) key :
  hget key (plain_sabun s) = match hget key s with
                             | Some (RParam p) => Some (RParam p)
                             | Some (RMut o) => Some (RMut (option_map (plain_list n) o))
                             | None => None
                             end.
Proof.
  unfold plain_sabun. rewrite (hget_map (fun v => match v with RParam p => RParam p | RMut o => RMut (option_map (plain_list n) o) end)).
  destruct (hget key s) as [[]|]; reflexivity.
Qed.

Lemma plain_ids ord nx n (a b : mlistT n) : sameT ord nx n a b -> ord = true -> map fst (fst (plain_list n a)) = map fst (fst (plain_list n b)).
Proof.
  destruct n as [|n]; [destruct a|]. cbn [sameT plain_list fst]. intros (E & _) ->. rewrite !map_map. exact E.
Qed.

Lemma plain_lists n (s : sabun n) : clean_root s -> no_cil_root s -> changeable_lists (plain_sabun s).
Proof.
  intros (N & C) Nc key l next E. rewrite plain_get in E. destruct (hget key s) as [[p|[x|]]|] eqn:G; cbn in E; try discriminate E. apply Some_inj in E. injection E as E.
  destruct (plain_changeable n x (C _ _ G) (Nc _ _ (DiffProofs.hget_in _ _ _ G))) as (A & B). rewrite E in A, B. split; assumption.
Qed.

(** ** Every depth that is enough will do *)
Lemma root_exists_at mem r counted n (def : rootdef n) : ro_wf r -> zlen (ro_default r) <= 2 ^ 62 ->
  ro_sound (wf_param mem) wf_ref (list_ok counted) (fun n => n <= 2 ^ 62) r -> root_valid r false -> is_rootdef (ro_default r) def ->
  exists s : sabun n, is_sabun (ro_sabun r) s /\ wf_rootdef def /\ typed_root mem s def /\ (counted = true -> counted_root s).
Proof.
  intros ((Nd & Wd) & _ & La) Lf (Sd & Ss & Ns) (_ & V) F.
  assert (F' : Forall2 (fun a b => fst a = fst b /\ (fst (snd a) = fst (snd b) /\ is_rootval (is_def n) (snd (snd a)) (snd (snd b)))) (ro_default r) def) by exact F.
  assert (Wf : Forall (fun e => match snd (snd e) with RVMList d _ => wf_defT n d | _ => True end) def).
  { apply Forall_forall. intros [k [i w]] I. cbn [fst snd]. destruct (forall2_in_r _ _ _ _ F I) as ([k' [i' v]] & Iv & _ & _ & M). cbn in M. destruct w as [| | |e u]; try exact Logic.I.
    destruct v as [| | |d u']; try contradiction. destruct M as (M & _). eapply is_def_wf; [exact M|exact (Wd _ _ _ Iv)]. }
  assert (Each : forall a, In a (ro_sabun r) -> exists b : DocModel.name * rootsab (mlistT n), fst a = fst b /\ is_rootsab (is_mlist n) (snd a) (snd b) /\
      (exists o, snd b = RMut o /\ exists id d u, hget (fst b) def = Some (id, RVMList d u) /\ match o with Some l => typedT mem n l d | None => u = true end) /\
      (counted = true -> forall l, snd b = RMut (Some l) -> countedT n l)).
  { intros [key x] I. destruct (La _ _ I) as (id & v & Iv & Lv). destruct v as [| | |d u]; try destruct Lv.
    pose proof (Sd _ _ _ Iv) as Hf. cbn in Hf. destruct (V _ _ _ Iv) as [Hd Hx]. specialize (Hx x (in_hget _ _ _ Ns I)).
    pose proof (forall2_hget (fun a b => fst a = fst b /\ is_rootval (is_def n) (snd a) (snd b)) _ _ key F') as M.
    rewrite (in_hget _ _ _ (proj1 Nd) Iv) in M. destruct (hget key def) as [[id' w]|] eqn:Ge; [|destruct M]. cbn in M. destruct M as (<- & M).
    destruct w as [| | |e u']; [destruct M|destruct M|destruct M|destruct M as [M <-]].
    assert (We : wf_defT n e) by (apply DiffProofs.hget_in in Ge; rewrite Forall_forall in Wf; exact (Wf _ Ge)).
    pose proof (Ss _ _ I) as S. destruct Hx as [(l & next & -> & Hi)|[-> ->]].
    - destruct S as [S1 S2]. destruct (list_exists mem r counted n d e l next M We Hf Hd S1 S2 Hi) as (l' & A & B & C).
      exists (key, RMut (Some l')). cbn. split; [reflexivity|]. split; [exact A|]. split; [exists (Some l'); split; [reflexivity|]; exists id, e, u; auto|].
      intros Hc l2 E. injection E as <-. apply C, Hc.
    - exists (key, RMut None). cbn. split; [reflexivity|]. split; [exact Logic.I|]. split; [exists None; split; [reflexivity|]; exists id, e, true; auto|discriminate]. }
  apply choice in Each as [s Fs]. exists s. split; [|split; [|split]].
  - eapply forall2_impl; [|exact Fs]. intuition.
  - assert (Nf : numbered def) by (eapply (forall2_numbered (fun _ _ => True)); [|exact Nd]; eapply forall2_impl; [|exact F]; intuition).
    split; [exact Nf|]. split; [apply numbered_few; [exact Nf|]; eapply Z.le_trans; [|exact Lf]; apply Z.eq_le_incl, eq_sym, (forall2_zlen _ _ _ F)|exact Wf].
  - split.
    + assert (K : map fst (ro_sabun r) = map fst s) by (eapply forall2_map; [|exact Fs]; intuition). rewrite <- K. exact Ns.
    + intros key v G. apply DiffProofs.hget_in in G. destruct (forall2_in_r _ _ _ _ Fs G) as (a & _ & _ & _ & (o & E & T) & _). cbn in E, T. subst v. exact T.
  - intros Hc key l G. apply DiffProofs.hget_in in G. destruct (forall2_in_r _ _ _ _ Fs G) as (a & _ & _ & _ & _ & T). apply (T Hc _ eq_refl).
Qed.

(* ------------------------------------------------------------------ *)
(** * Saving and loading *)

Section Trip.
Variable addr : list Z -> Z.
Variable mem : Z -> list Z.
Variable iter : forall A, hmap A -> hmap A.
Variable parse : list Z -> option jval.
Variable unpack : list Z -> res (smap (list Z)).
Hypothesis It : iterates iter.
Hypothesis Hm : forall s, mem (addr s) = s.

Variable files : smap (list Z).
Variable r : root_obj.
Hypothesis Names : NoDup (source_names parse files).
Hypothesis Few : zlen (source_names parse files) <= 2 ^ 62.
Hypothesis Rust : all_files (everywhere rust_node) parse files.
Hypothesis Unique : all_files (everywhere unique_node) parse files.
Hypothesis Counted : all_files (everywhere counted_node) parse files.
Hypothesis Loaded : load_root addr iter parse files true = Ok r.

Notation save n := (save_dochy_file root_obj (difference n)).
Notation load n := (load_dochy_file root_obj (patch addr n) (archive_file_to_root addr iter parse unpack) (move_to iter)).

Lemma loaded_facts : files_to_root addr iter parse files = Ok r /\ root_valid r false /\ ro_wf r /\ zlen (ro_default r) <= 2 ^ 62 /\
  ro_sound (wf_param mem) wf_ref (list_ok true) (fun n => n <= 2 ^ 62) r.
Proof.
  pose proof Loaded as E0. unfold load_root in E0. apply bind_ok in E0 as (r0 & E1 & E2). apply bind_ok in E2 as ([] & E2 & E3). apply Ok_inj in E3; subst r0.
  pose proof (loaded_distinct addr iter parse files r It Unique E1) as D. apply (validate_root_iff r false D) in E2.
  split; [exact E1|]. split; [exact E2|]. pose proof (files_wf addr iter It parse files Names) as G. rewrite E1 in G. destruct G as [W P]. split; [exact W|].
  split; [apply Permutation_length in P; rewrite map_length in P; unfold zlen in *; rewrite P; exact Few|].
  apply (loaded_sound addr mem iter parse files r true It Hm); [|exact E1]. intros path content v I Ev. pose proof (Rust _ _ _ I Ev) as Rv. pose proof (Unique _ _ _ I Ev) as Uv. pose proof (Counted _ _ _ I Ev) as Cv.
  eapply everywhere_impl; [|apply (everywhere_and _ _ _ Rv (everywhere_and _ _ _ Uv Cv))]. unfold ok_node. cbn. intuition.
Qed.

(** what is known of the loaded object, whatever depth is chosen *)
Lemma loaded_typed n (def : rootdef n) (f : sabun n) :
  rootdef_of n (ro_default r) = Some def -> sabun_of n (ro_sabun r) = Some f -> is_rootdef (ro_default r) def /\
  wf_rootdef def /\ typed_root mem f def /\ counted_root f /\ few_rootdef def /\ lists_there def f /\ root_valid r false.
Proof.
  intros Ed Ef. apply is_rootdef_of in Ed. destruct loaded_facts as (E1 & V & W & L & S).
  destruct (root_exists_at mem r true n def W L S V Ed) as (s & B & Wd & T & C).
  assert (Ns : no_cil_root s) by (eapply typed_no_cil_root; eassumption). rewrite (sabun_of_is _ _ _ B Ns) in Ef. apply Some_inj in Ef; subst s.
  split; [exact Ed|]. split; [exact Wd|]. split; [exact T|]. split; [apply C; reflexivity|].
  split; [exact (loaded_few addr mem iter parse files r n def It Hm Rust Unique E1 Ed Wd)|]. split; [exact (loaded_there addr iter parse files r n def f E1 Ed B)|exact V].
Qed.

Lemma loaded_depth : exists n (def : rootdef n) (f : sabun n), rootdef_of n (ro_default r) = Some def /\ sabun_of n (ro_sabun r) = Some f.
Proof.
  destruct (loaded_root addr mem iter parse files r true It Hm Names Few Rust Unique ltac:(auto) Loaded) as (n & def & f & A & B & W & T & Hc). destruct loaded_facts as (_ & V & _).
  exists n, def, f. split; [apply rootdef_of_is, A|]. apply sabun_of_is; [exact B|eapply typed_no_cil_root; eassumption].
Qed.

Section Known.
Context {n : nat}.
Variable def : rootdef n.
Variable f : sabun n.
Hypothesis Ed : rootdef_of n (ro_default r) = Some def.
Hypothesis Ef : sabun_of n (ro_sabun r) = Some f.
Hypothesis D : is_rootdef (ro_default r) def.
Hypothesis W : wf_rootdef def.
Hypothesis T : typed_root mem f def.
Hypothesis C : counted_root f.
Hypothesis Fe : few_rootdef def.
Hypothesis Th : lists_there def f.
Hypothesis V : root_valid r false.
Hypothesis Sm : small_rootdef def.
Hypothesis Un : forall key id d, hget key def <> Some (id, RVMList d true).

Lemma saved_patched t d ops : Forall (ok_root_step mem def) ops -> calm_program true def f ops -> program_run def f ops = Ok d ->
  size_root f + size_root d < 2 ^ 58 -> sabun_of n (ro_sabun t) = Some d ->
  exists bytes x, difference n r t = Ok bytes /\ patch addr n r bytes = Ok (with_members r x) /\
    same_root true false x d /\ clean_root x /\ no_cil_root x.
Proof.
  intros O Ca Er Z Et. pose proof (program_typed mem n def ops Fe O f d T Er) as Td.
  destruct (program_edit true mem n def ops Fe Un O f d T Th Ca Er) as (Re & _).
  destruct (edits_reproduced mem true def f d W Sm Un T Td C Re (size_fits n f d def (typed_clean _ _ _ _ T) (typed_clean _ _ _ _ Td) Z)) as (bytes & Ev & _ & Ap).
  destruct (Ap f (same_root_refl true false f)) as (x & Ex & Sx). exists bytes, (place_root addr x). unfold difference, patch. rewrite Ed, Ef, Et. split; [exact Ev|].
  unfold apply_placed. rewrite Ex. cbn [bind]. split; [reflexivity|].
  assert (Cx : clean_root (place_root addr x)) by (apply place_clean; eapply clean_apply; [eapply typed_clean; exact T|exact Ex]).
  assert (Sp : same_root true false (place_root addr x) d).
  { eapply same_root_trans; [eapply same_root_weaken, place_same|exact Sx]. }
  split; [exact Sp|]. split; [exact Cx|]. eapply same_no_cil_root; [exact Sp|exact Cx|]. eapply typed_no_cil_root; eassumption.
Qed.

Lemma saved_loaded t d ops now (cur : source root_obj) name ow fs fs' :
  Forall (ok_root_step mem def) ops -> calm_program true def f ops -> program_run def f ops = Ok d ->
  size_root f + size_root d < 2 ^ 58 -> sabun_of n (ro_sabun t) = Some d ->
  so_root cur = r -> FolderSpec.plain name -> save n now cur name t ow fs = (Ok tt, fs') ->
  exists x, same_root true false x d /\ clean_root x /\ changeable_lists (plain_sabun x) /\
    load n cur (so_hash cur) name fs' = Ok (with_members r x) /\
    forall new, so_hash new <> so_hash cur -> name <> archive_name ->
      unpack (match read_at (so_hash cur) archive_name fs with Some b => b | None => a_bytes (so_archive cur) end) = Ok files ->
      load n new (so_hash cur) name fs' = move_to iter (so_root new) (with_members r x).
Proof.
  intros O Ca Er Z Et Eo P H. destruct (saved_patched t d ops O Ca Er Z Et) as (bytes & x & Eb & Ex & Sx & Cx & Nx).
  exists x. split; [exact Sx|]. split; [exact Cx|]. split; [apply plain_lists; assumption|].
  destruct (saved _ _ _ _ _ _ _ _ P H) as (fs1 & diff & Ep & Ev & ->). destruct (prepared _ _ _ _ _ _ Ep) as (_ & _ & _ & Pk & _). destruct (Pk eq_refl) as [G Ra].
  rewrite Eo, Eb in Ev. apply Ok_inj in Ev. subst diff. split.
  - unfold load_dochy_file. rewrite Z.eqb_refl, read_write, Z.eqb_refl, eqb_bytes_refl. cbn [andb bind]. destruct (get_folder (so_hash cur) fs1); [|contradiction]. cbn [ok_or bind]. rewrite Eo, Ex. reflexivity.
  - intros new N Na Eu. unfold load_dochy_file. destruct (Z.eqb_spec (so_hash new) (so_hash cur)) as [E|_]; [contradiction|].
    rewrite !read_write, Z.eqb_refl, eqb_bytes_refl, (eqb_bytes_false _ _ Na). cbn [andb]. rewrite Ra. cbn [ok_or bind]. unfold archive_file_to_root at 1. rewrite Eu. cbn [bind]. rewrite Loaded. cbn [bind].
    destruct (get_folder (so_hash cur) fs1); [|contradiction]. cbn [ok_or bind]. rewrite Ex. reflexivity.
Qed.
End Known.
End Trip.
