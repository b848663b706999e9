(** C69: what accessors write is read afterwards, and nothing else changes. *)
From Coq Require Import String.
From Verif Require Import Base StringCompactionModel StringCompactionProofs LinkedModel LinkedSpec DocModel DiffModel DiffSpec DiffProofs DiffProofs2 DiffEditProofs ArchiveModel JsonModel JsonSpec JsonProofs JsonProps ValidModel ValidSpec ValidProps EmbedSpec EmbedProofs LoadSpec SaysSpec SaysProps IntfModel IntfSpec IntfProofs SizeSpec SizeProofs SavedModel SavedProofs ReadModel ReadSpec ReadProps AgainModel AgainSpec AgainProofs GenModel GenSpec GenProofs GenWellProofs GenRunProofs GenCheckProofs GenProps.
From Verif Require GrownProofs.
From Verif Require EmbedProps.
Import EmbedProps(text_addr, text_at, text_at_addr).
From Verif Require Import CodeSpec CodeNameProofs CodeProps ApiModel TypeSpec TypeProofs TypeGenProofs ReadModel RunModel RunSpec RunProofs RunGenProofs RunWayProofs RunAskProofs RunIdProofs RunProps WroteSpec WroteProofs WroteStepProofs.

Local Notation text := (list Z).
Local Notation "! s" := (txt s%string) (at level 0, s at level 0).
Local Notation "'var' s" := (EVar (txt s%string)) (at level 0, s at level 0).

Section Props.
Variable old : list name.
Variable iter : forall A, hmap A -> hmap A.
Variable r : root_obj.
Variable told : effect -> bool.
Variable p : list CodeSpec.item.
Variable G : env.
Variable mem : Z -> list Z.
Context {n : nat}.
Variable def : rootdef n.
Variable f : sabun n.

Local Notation plainly := (RunSpec.plainly p iter r told G).
Local Notation root := (ro_default r).

Lemma allows_contents vt q : allows_param vt q -> allows vt (contents q).
Proof. destruct q as [[v| |]|[v| |]|[v| |]|[v| |]|[v| |]|[v| |]|[v| |]]; cbn; auto. Qed.

(** evaluating something that changes the item at a place *)
Lemma turn_item a s e eff here o b c : accessible old r p -> holds mem def f r -> few_rootdef def -> item_at r a = Some s ->
  (forall tr, evals p iter r told G e tr (changed r a [eff] tr)) -> performs eff (step_at a here o) ->
  (forall m d it, spotted mem s m d it -> exists it', item_do it d o = Ok (it', b) /\ plain_item m it' = c) ->
  (forall m d it, spotted mem s m d it -> ok_item_op mem d o) -> (forall m d it, spotted mem s m d it -> generated_op d o) ->
  exists d, turns mem p iter r told G e def f d /\ with_members r d = put_root r a c /\ holds mem def d (with_members r d) /\ accessible old (with_members r d) p.
Proof.
  intros A H Few At Ev Pe Do Ok Ge. destruct (root_put mem n def f r H a s here o b c At Do) as (d & E & W).
  pose proof (opens_run mem n def f r H a s [] At) as O. pose proof (run_app mem n def f _ _ _ _ O E) as R.
  assert (Fo : Forall (ok_root_step mem def) (open_steps [] a ++ [step_at a here o])).
  { apply Forall_app. split; [eapply Forall_impl; [|exact O]; cbn beta; tauto|]. constructor; [|constructor]. exact (root_ok mem n def f r H a s here o At Ok). }
  assert (Fg : Forall (generated_root_step def) (open_steps [] a ++ [step_at a here o])).
  { apply Forall_app. split; [eapply Forall_impl; [|exact O]; cbn beta; tauto|]. constructor; [|constructor]. exact (root_generated mem n def f r H a s here o At Ge). }
  exists d. split; [|split; [exact W|split]].
  - intros tr. exists (opens a ++ [eff]), (open_steps [] a ++ [step_at a here o]). split; [specialize (Ev tr); unfold changed in Ev; rewrite At in Ev; exact Ev|].
    split; [apply Forall2_app; [apply opens_perform|constructor; [exact Pe|constructor]]|]. split; [exact Fo|]. split; [exact Fg|exact R].
  - destruct H as (Rd & Rs & T). split; [exact Rd|]. split; [reflexivity|]. eapply program_typed; [exact Few|exact Fo|exact T|exact R].
  - exact A.
Qed.

(** Setting a member of an item. *)
Theorem C69_set : forall a stem l e key i p0 vt q ea, accessible old r p -> has_root G -> holds mem def f r -> few_rootdef def ->
  seizes old root a stem l e -> item_at r a <> None -> In (key, (i, DParam p0 vt)) (ld_members l) ->
  type_of q = type_of p0 -> allows_param vt q -> wf_param mem q -> plainly ea (as_marked VOf vt (contents q)) ->
  exists d, turns mem p iter r told G (do e (!"set_" ++ with_old key (contains (ld_old l) key)) [ea]) def f d /\
    let t := with_members r d in holds mem def d t /\ accessible old t p /\
    (forall w stem' e' tr, goes old root w false stem' l e' -> place w = Some a ->
      evals p iter t told G (asks e' (with_old key (contains (ld_old l) key))) tr (Ok (some (as_marked VOf vt (contents q)), tr))) /\
    unchanged iter r t (fun x => forall w, x = Param w key -> place w <> Some a).
Proof.
  intros a stem l e key i p0 vt q ea A HG H Few Se At I Ty Al Wf Ea. destruct (item_at r a) as [s|] eqn:E; [|contradiction]. clear At.
  pose proof A as (T & _). pose proof (seizes_spot old r T a stem l e Se) as Sp. rewrite E in Sp. destruct (seizes_listed old r a stem l e Se) as (Na & C).
  pose proof (member_get r T stem l key _ (mlisted_listed _ _ _ C) I) as Hk.
  set (c := CItem (hset key (VParam q) (ci_values (fst s))) (ci_refs (fst s))).
  destruct (turn_item a s (do e (!"set_" ++ with_old key (contains (ld_old l) key)) [ea]) (ESet a (type_of p0) key (of_qv VOf (contents q))) (OSet key q) (ISet key q) true c A H Few E) as (d & Tu & W & Ho & Ac).
  - intros tr. eapply C68_set; [exact A|exact HG|exact Se|exact I|apply allows_contents, Al|exact Ea].
  - apply performs_set, Ty.
  - intros m d it (Pl & D & Ti). rewrite Sp in D. pose proof (def_param m _ d key i p0 vt D Hk) as Hd. pose proof (typed_kinds _ _ _ _ Ti) as K. cbn [item_do]. unfold item_set. rewrite Hd.
    assert (V : verify_set_sabun p0 vt q = true) by (apply verify_iff; split; [exact Ty|exact Al]). rewrite V.
    assert (X : exists it', match hget key (it_values it) with None | Some (LParam _) => Ok (Item (hset key (LParam q) (it_values it)) (it_refs it), true) | Some _ => Panic end = Ok (it', true) /\ it' = Item (hset key (LParam q) (it_values it)) (it_refs it)).
    { destruct (hget key (it_values it)) as [v|] eqn:Gv; [|eexists; split; reflexivity]. destruct (K _ _ _ _ _ Gv Hd) as (q' & ->). eexists; split; reflexivity. }
    destruct X as (it' & -> & ->). eexists. split; [reflexivity|]. unfold c. rewrite <- Pl. exact (f_equal (fun m => CItem m (it_refs it)) (hset_map (plain_value (plain_list m)) key (LParam q) (it_values it))).
  - intros m d it _. exact Wf.
  - intros m d it _. exact Logic.I.
  - exists d. split; [exact Tu|]. intros t. split; [exact Ho|]. split; [exact Ac|].
    assert (Mil : forall k, spot_mil (c, snd s) k = spot_mil s k).
    { intros k. unfold spot_mil. cbn [fst snd]. unfold c. cbn [ci_values]. rewrite Sp. cbn [undef]. rewrite hget_hset. destruct (eqb_bytes key k) eqn:B; [apply eqb_bytes_eq in B; subst k; rewrite Hk|]; reflexivity. }
    assert (Cil : forall k, spot_cil (c, snd s) k = spot_cil s k).
    { intros k. unfold spot_cil. cbn [fst snd]. unfold c. cbn [ci_values]. rewrite Sp. cbn [undef]. rewrite hget_hset. destruct (eqb_bytes key k) eqn:B; [apply eqb_bytes_eq in B; subst k; rewrite Hk|]; reflexivity. }
    split.
    + intros w stem' e' tr Go Pw. eapply evals_R; [eapply (C68_read old iter t told p G w false stem' l e' key i p0 vt tr Ac HG Go I)|].
      unfold read_at. unfold t. rewrite W. rewrite (proj2 (visit_at iter r a s c E Mil Cil w Pw)). cbn [bind]. unfold get_param. cbn [snd]. rewrite Sp. cbn [undef]. rewrite Hk. unfold spot_param. cbn [fst]. unfold c. cbn [ci_values]. rewrite hget_hset_same.
      cbn [get_as]. rewrite (proj2 (eqb_type_iff _ _) Ty). rewrite (unwrapped_allowed vt q Al). reflexivity.
    + intros x Nx. unfold t. rewrite W. apply (put_answers iter r a s c E Mil Cil).
      * intros w _. left. reflexivity.
      * intros w k -> Pw. unfold get_param. cbn [snd]. rewrite Sp. cbn [undef]. destruct (hget k (ld_members l)) as [[j [p1 vt1|d1|d1 u1]]|]; try reflexivity. f_equal. f_equal. unfold spot_param. cbn [fst]. unfold c. cbn [ci_values]. rewrite hget_hset. rewrite eqb_bytes_neq; [rewrite Sp; reflexivity|].
        intros <-. exact (Nx w eq_refl Pw).
      * intros w k _ _. reflexivity.
      * intros w _ _. reflexivity.
Qed.

(** Setting a reference of an item. *)
Theorem C69_set_ref : forall a stem l e key i q vt j d0 rows o (c : qv name) ea, accessible old r p -> has_root G -> holds mem def f r -> few_rootdef def ->
  seizes old root a stem l e -> item_at r a <> None -> ld_enum l = false -> In (key, (i, (q, vt))) (ld_refs l) ->
  In (key, (j, WTable d0 rows o)) root -> (forall row, c = Val row -> In row (map fst rows)) -> allows vt c -> wf_ref c -> plainly ea (as_marked (id_value key o) vt c) ->
  exists d, turns mem p iter r told G (do e (!"set_ref_" ++ with_old key (contains (ld_ref_old l) key)) [ea]) def f d /\
    let t := with_members r d in holds mem def d t /\ accessible old t p /\
    (forall w stem' e' tr, goes old root w false stem' l e' -> place w = Some a ->
      evals p iter t told G (asks e' (!"ref_id_" ++ with_old key (contains (ld_ref_old l) key))) tr (Ok (some (as_marked (fun s => VText s) vt c), tr))) /\
    unchanged iter r t (fun x => (forall w, way_of x = Some w -> avoids a w) /\ forall w, x = RefId w key -> place w <> Some a) /\
    match c with
    | Val row => forall x x', asked_instead (ref_of a key) (Row key row) x x' -> ask iter t x = ask iter r x'
    | _ => forall w, ref_of a key w -> ask iter t (There w) = Ok Nothing
    end.
Proof.
  intros a stem l e key i q vt j d0 rows o c ea A HG H Few Se At En I J Ro Al Wf Ea. destruct (item_at r a) as [s|] eqn:E; [|contradiction]. clear At.
  pose proof A as (T & _). pose proof (seizes_spot old r T a stem l e Se) as Sp. rewrite E in Sp. destruct (seizes_listed old r a stem l e Se) as (Na & C).
  pose proof (refs_get' r T stem l key _ (mlisted_listed _ _ _ C) I) as Hk.
  set (c1 := CItem (ci_values (fst s)) (hset key c (ci_refs (fst s)))).
  destruct (turn_item a s (do e (!"set_ref_" ++ with_old key (contains (ld_ref_old l) key)) [ea]) (ESetRef a key (of_qv (fun s => VText s) c)) (OOpen key) (IRef key c) true c1 A H Few E) as (d & Tu & W & Ho & Ac).
  - intros tr. eapply C68_set_ref; [exact A|exact HG|exact Se|exact En|exact I|exact J|exact Ro|exact Al|exact Ea].
  - apply performs_ref, Na.
  - intros m d it (Pl & D & Ti). cbn [item_do item_set_ref]. eexists. split; [reflexivity|]. unfold c1. rewrite <- Pl. reflexivity.
  - intros m d it (Pl & D & Ti). cbn [ok_item_op]. assert (D' : ld_refs (undef (snd s)) = ld_refs d) by apply D. rewrite <- D', Sp. cbn [undef]. exists i, q, vt. split; [exact Hk|]. split; [|exact Wf]. destruct c, vt; cbn in Al |- *; (reflexivity || (destruct Al as [Al|Al]; discriminate Al)).
  - intros m d it (Pl & D & Ti). cbn [generated_op]. assert (D' : ld_enum (undef (snd s)) = ld_enum d) by apply D. rewrite <- D', Sp. exact En.
  - exists d. split; [exact Tu|]. intros t. split; [exact Ho|]. split; [exact Ac|].
    assert (Mil : forall k, spot_mil (c1, snd s) k = spot_mil s k) by reflexivity.
    assert (Cil : forall k, spot_cil (c1, snd s) k = spot_cil s k) by reflexivity.
    assert (Un : unchanged iter r t (fun x => (forall w, way_of x = Some w -> avoids a w) /\ forall w, x = RefId w key -> place w <> Some a)).
    { intros x (Av & Nx). unfold t. rewrite W. apply (put_answers iter r a s c1 E Mil Cil).
      - intros w Hw. right. apply Av, Hw.
      - intros w k _ _. reflexivity.
      - intros w k -> Pw. unfold get_ref_id, spot_ref_id. cbn [fst snd]. unfold c1. cbn [ci_refs]. rewrite hget_hset. rewrite eqb_bytes_neq; [reflexivity|]. intros <-. exact (Nx w eq_refl Pw).
      - intros w _ _. unfold get_enum_ids. cbn [snd]. rewrite Sp. cbn [undef]. rewrite En. reflexivity. }
    assert (Fo : forall w, place w = Some a -> visit iter t (Ref w key) = (q1 <- (o <- spot_ref t (c1, snd s) key ; unwrapped vt o) ; Ok (match q1 with Val x => Some x | _ => None end))).
    { intros w Pw. cbn [visit]. unfold t at 1. rewrite W. rewrite (proj2 (visit_at iter r a s c1 E Mil Cil w Pw)). cbn [bind]. unfold get_ref. cbn [snd]. rewrite Sp. cbn [undef]. rewrite En, Hk. reflexivity. }
    assert (Id : spot_ref_id (c1, snd s) key = Some c) by (unfold spot_ref_id; cbn [fst]; unfold c1; cbn [ci_refs]; rewrite hget_hset_same; reflexivity).
    split; [|split; [exact Un|]].
    + intros w stem' e' tr Go Pw. eapply evals_R; [eapply (C68_ref_id old iter t told p G w false stem' l e' key i q vt tr Ac HG Go En I)|].
      unfold t. rewrite W. rewrite (proj2 (visit_at iter r a s c1 E Mil Cil w Pw)). cbn [if_there]. rewrite Id.
      replace (unwrapped vt _) with (Ok c) by (symmetry; exact (allows_unwrapped vt c Al)). reflexivity.
    + pose proof (root_get r T key _ J) as Hj. destruct c as [row| |].
      * intros x x' As. destruct (asked_row _ _ _ _ _ As) as (w1 & X1 & X2 & X3). transitivity (ask iter t x').
        -- eapply instead_ask; [|exact As]. intros w (w0 & -> & Pw). rewrite (Fo w0 Pw). unfold spot_ref. rewrite Id. cbn [visit]. unfold root_table. change (ro_default t) with root. rewrite Hj. cbn [need bind].
           destruct (table_value (rows, d0) row) as [s1|] eqn:Tv; cbn [option_map need bind unwrapped]; [reflexivity|]. unfold table_value in Tv. cbn [fst] in Tv.
           destruct (hget row rows) eqn:Hr; [discriminate|]. specialize (Ro row eq_refl). apply in_map_iff in Ro as ([k v] & Ek & Ir). cbn [fst] in Ek. subst k. exfalso. apply hget_none in Hr. apply Hr, in_map_iff. exists (row, v). auto.
        -- apply Un. split; [intros w Hw; rewrite X1 in Hw; apply Some_inj in Hw; subst w; apply X3|]. intros w -> Pw. cbn [way_of] in X1. apply Some_inj in X1. subst w1. congruence.
      * intros w (w0 & -> & Pw). cbn [ask]. unfold at_item. rewrite (Fo w0 Pw). unfold spot_ref. rewrite Id. cbn [bind]. replace (unwrapped vt (Some Undefined)) with (Ok (@Undefined spot)) by (symmetry; exact (@allows_unwrapped spot vt Undefined Al)). reflexivity.
      * intros w (w0 & -> & Pw). cbn [ask]. unfold at_item. rewrite (Fo w0 Pw). unfold spot_ref. rewrite Id. cbn [bind]. replace (unwrapped vt (Some Null)) with (Ok (@Null spot)) by (symmetry; exact (@allows_unwrapped spot vt Null Al)). reflexivity.
Qed.

(** Setting the enum of an item. *)
Theorem C69_set_enum : forall a stem l e key x j d0 rows o row it0, iterates iter -> accessible old r p -> has_root G -> holds mem def f r -> few_rootdef def ->
  seizes old root a stem l e -> item_at r a <> None -> ld_enum l = true -> In (key, x) (ld_refs l) ->
  In (key, (j, WTable d0 rows o)) root -> In (row, it0) rows -> wf_ref (Val row) ->
  exists d, turns mem p iter r told G (do e !"set_enum" [path (kind_type stem) (to_type_name key) [id_text key o row]]) def f d /\
    let t := with_members r d in holds mem def d t /\ accessible old t p /\
    (forall w stem' e' tr, goes old root w false stem' l e' -> place w = Some a ->
      evals p iter t told G (asks e' !"get_enum_ids") tr (Ok (some (VPair (VText key) (VText row)), tr))) /\
    unchanged iter r t (fun x => (forall w, way_of x = Some w -> avoids a w) /\ forall w, x = EnumIds w -> place w <> Some a) /\
    (forall x x', asked_instead (enum_of a key) (Row key row) x x' -> ask iter t x = ask iter r x') /\
    forall k w, k <> key -> enum_of a k w -> ask iter t (There w) = Ok Nothing.
Proof.
  intros a stem l e key x j d0 rows o row it0 It A HG H Few Se At En I J Ro Wf. destruct (item_at r a) as [s|] eqn:E; [|contradiction]. clear At.
  pose proof A as (T & _). pose proof (seizes_spot old r T a stem l e Se) as Sp. rewrite E in Sp. destruct (seizes_listed old r a stem l e Se) as (Na & C).
  pose proof (refs_get' r T stem l key _ (mlisted_listed _ _ _ C) I) as Hk.
  set (c1 := CItem (ci_values (fst s)) [(key, Val row)]).
  destruct (turn_item a s (do e !"set_enum" [path (kind_type stem) (to_type_name key) [id_text key o row]]) (ESetEnum a key row) (OOpen key) (IntfModel.IEnum key row) true c1 A H Few E) as (d & Tu & W & Ho & Ac).
  - intros tr. eapply C68_set_enum; [exact A|exact HG|exact Se|exact En|exact I|exact J|exact Ro].
  - apply performs_enum, Na.
  - intros m d it (Pl & D & Ti). cbn [item_do item_set_enum item_set_ref]. eexists. split; [reflexivity|]. unfold c1. rewrite <- Pl. reflexivity.
  - intros m d it (Pl & D & Ti). cbn [ok_item_op]. assert (D' : ld_refs (undef (snd s)) = ld_refs d) by apply D. rewrite <- D', Sp. cbn [undef]. destruct x as (i & q & vt). exists i, q, vt. split; [exact Hk|]. split; [destruct vt; reflexivity|exact Wf].
  - intros m d it (Pl & D & Ti). cbn [generated_op]. assert (D' : ld_enum (undef (snd s)) = ld_enum d) by apply D. rewrite <- D', Sp. exact En.
  - exists d. split; [exact Tu|]. intros t. split; [exact Ho|]. split; [exact Ac|].
    assert (Mil : forall k, spot_mil (c1, snd s) k = spot_mil s k) by reflexivity.
    assert (Cil : forall k, spot_cil (c1, snd s) k = spot_cil s k) by reflexivity.
    assert (Un : unchanged iter r t (fun x => (forall w, way_of x = Some w -> avoids a w) /\ forall w, x = EnumIds w -> place w <> Some a)).
    { intros y (Av & Nx). unfold t. rewrite W. apply (put_answers iter r a s c1 E Mil Cil).
      - intros w Hw. right. apply Av, Hw.
      - intros w k _ _. reflexivity.
      - intros w k -> Pw. unfold get_ref_id. cbn [snd]. rewrite Sp. cbn [undef]. rewrite En. reflexivity.
      - intros w -> Pw. destruct (Nx w eq_refl Pw). }
    assert (Se1 : spot_enum iter (c1, snd s) = Some (key, row)).
    { unfold spot_enum. cbn [fst]. unfold c1. cbn [ci_refs]. assert (X : iter _ [(key, Val row)] = [(key, Val row)]) by (apply Permutation_length_1_inv, Permutation_sym, It).
      match goal with |- context [iter ?T ?m] => replace (iter T m) with [(key, Val row)] by (symmetry; exact X) end. reflexivity. }
    pose proof (root_get r T key _ J) as Hj.
    assert (Hr : hget row rows = Some it0) by (apply in_hget; [apply (t_rows _ T key j d0 rows o J)|exact Ro]).
    assert (Fo : forall w k, place w = Some a -> visit iter t (Enum w k) = Ok (if eqb_bytes key k then Some (it0, d0) else None)).
    { intros w k Pw. cbn [visit]. unfold t at 1. rewrite W. rewrite (proj2 (visit_at iter r a s c1 E Mil Cil w Pw)). cbn [bind]. unfold get_enum. cbn [snd]. rewrite Sp. cbn [undef]. rewrite En, <- Sp, Se1. cbn [need bind fst].
      unfold spot_ref, spot_ref_id. cbn [fst]. unfold c1. cbn [ci_refs hget]. rewrite eqb_bytes_refl. unfold root_table. change (ro_default t) with root. rewrite Hj. unfold table_value. cbn [fst snd]. rewrite Hr. cbn [option_map need bind is_some]. rewrite Hk. reflexivity. }
    split; [|split; [exact Un|split]].
    + intros w stem' e' tr Go Pw. eapply evals_R; [eapply (C68_enum_ids old iter t told p G w false stem' l e' tr Ac HG Go En)|].
      unfold t. rewrite W. rewrite (proj2 (visit_at iter r a s c1 E Mil Cil w Pw)). cbn [if_there]. rewrite Se1. reflexivity.
    + intros y y' As. destruct (asked_row _ _ _ _ _ As) as (w1 & X1 & X2 & X3). transitivity (ask iter t y').
      * eapply instead_ask; [|exact As]. intros w (w0 & -> & Pw). rewrite (Fo w0 key Pw), eqb_bytes_refl. cbn [visit]. unfold root_table. change (ro_default t) with root. rewrite Hj. unfold table_value. cbn [need bind fst snd]. rewrite Hr. reflexivity.
      * apply Un. split; [intros w Hw; rewrite X1 in Hw; apply Some_inj in Hw; subst w; apply X3|]. intros w -> Pw. cbn [way_of] in X1. apply Some_inj in X1. subst w1. congruence.
    + intros k w Nk (w0 & -> & Pw). cbn [ask]. unfold at_item. rewrite (Fo w0 k Pw). rewrite eqb_bytes_neq by congruence. reflexivity.
Qed.

(** Setting a member of the root. *)
Theorem C69_root_set : forall key i p0 vt q ea, accessible old r p -> has_root G -> holds mem def f r -> few_rootdef def ->
  In (key, (i, WParam p0 vt)) root -> type_of q = type_of p0 -> allows_param vt q -> wf_param mem q -> plainly ea (as_marked VOf vt (contents q)) ->
  exists d, turns mem p iter r told G (do var"root" (!"set_" ++ with_old key (contains old key)) [ea]) def f d /\
    let t := with_members r d in holds mem def d t /\ accessible old t p /\
    (forall tr, evals p iter t told G (do var"root" (with_old key (contains old key)) []) tr (Ok (as_marked VOf vt (contents q), tr))) /\
    unchanged iter r t (fun x => x <> RootParam key).
Proof.
  intros key i p0 vt q ea A HG H Few I Ty Al Wf Ea. pose proof A as (T & _). pose proof (root_get r T key _ I) as Hk. destruct H as (Rd & Rs & Tf). pose proof (is_rootdef_of _ _ _ Rd) as D.
  assert (Hd : hget key def = Some (i, RVParam p0 vt)).
  { pose proof (forall2_hget (fun a b => fst a = fst b /\ is_rootval (is_def n) (snd a) (snd b)) _ _ key D) as M. rewrite Hk in M. destruct (hget key def) as [[j v]|]; [|contradiction]. cbn [fst snd] in M. destruct M as (<- & M).
    destruct v; cbn [is_rootval] in M; try contradiction. destruct M as (<- & <-). reflexivity. }
  assert (V : verify_set_sabun p0 vt q = true) by (apply verify_iff; split; [exact Ty|exact Al]).
  assert (E : program_run def f [OSet key q] = Ok (hset key (RParam q) f)).
  { unfold program_run. cbn [mfold root_run]. unfold IntfModel.root_set. rewrite Hd, V. reflexivity. }
  assert (Fo : Forall (ok_root_step mem def) [OSet key q]) by (constructor; [exact Wf|constructor]).
  exists (hset key (RParam q) f). split; [|intros t; split; [|split; [exact A|split]]].
  - intros tr. exists [ESet [] (type_of p0) key (of_qv VOf (contents q))], [OSet key q]. split; [eapply C68_root_set; [exact A|exact HG|exact I|apply allows_contents, Al|exact Ea]|].
    split; [constructor; [|constructor]; apply (performs_set [] (type_of p0) key q), Ty|]. split; [exact Fo|]. split; [constructor; [exact Logic.I|constructor]|exact E].
  - split; [exact Rd|]. split; [reflexivity|]. eapply program_typed; [exact Few|exact Fo|exact Tf|exact E].
  - intros tr. eapply evals_R; [eapply (proj1 (C68_root old iter t told p G key i p0 vt tr A HG I))|]. unfold get_root_param. change (ro_default t) with root. rewrite Hk. unfold root_obj_param. cbn [t with_members ro_sabun].
    rewrite plain_hset_param, hget_hset_same. cbn [get_as]. rewrite (proj2 (eqb_type_iff _ _) Ty). rewrite (unwrapped_allowed vt q Al). reflexivity.
  - intros x Nx. apply (root_answers iter r t key i p0 vt eq_refl Hk); [|exact Nx]. intros k Nk. cbn [t with_members ro_sabun]. rewrite plain_hset_param, Rs. rewrite hget_hset_other by congruence. reflexivity.
Qed.
End Props.
Print Assumptions C69_set.
Print Assumptions C69_set_ref.
Print Assumptions C69_set_enum.
Print Assumptions C69_root_set.

(** Loaded documents are documents of this kind: with the next ids that a copy has, which no
    question asks for. *)
Theorem C69_loaded : forall addr mem iter parse files r, iterates iter -> (forall s, mem (addr s) = s) ->
  NoDup (source_names parse files) -> zlen (source_names parse files) <= 2 ^ 62 ->
  all_files (everywhere rust_node) parse files -> all_files (everywhere unique_node) parse files -> all_files (everywhere counted_node) parse files ->
  load_root addr iter parse files true = Ok r ->
  exists n (def : rootdef n) (f : sabun n), rootdef_of n (ro_default r) = Some def /\ sabun_of n (ro_sabun r) = Some f /\ few_rootdef def /\
    holds mem def f (with_members r f) /\ forall q, same_told (ask iter r q) (ask iter (with_members r f) q).
Proof.
  intros addr mem iter parse files r It Hm N L R U C E.
  destruct (loaded_depth addr mem iter parse (fun _ => Err) It Hm files r N L R U C E) as (n & def & f & Ed & Ef).
  destruct (loaded_typed addr mem iter parse (fun _ => Err) It Hm files r N L R U C E n def f Ed Ef) as (D & W & T & Co & Fe & Th & V).
  exists n, def, f. split; [exact Ed|]. split; [exact Ef|]. split; [exact Fe|]. split; [split; [exact Ed|split; [reflexivity|exact T]]|].
  pose proof (typed_clean _ _ _ _ T) as Cl. intros q. apply (answers_same r false n def r f f V D eq_refl Ef (valid_sole_root r false n f def V D Ef) (GrownProofs.same_root_refl true false f) Cl Cl iter iter q It It).
Qed.
Print Assumptions C69_loaded.

(* ------------------------------------------------------------------ *)
(** * A case *)

Definition wrote_source : jval :=
  JMap [(txt "n?", JInt 5); (txt "Old", JArray [str "n"]);
        (txt "list", tagged_with "MList" [
           JArray [JMap [(txt "x", JInt 1); (txt "Ref", JMap [(txt "t?", JNull)]);
                         (txt "l", tagged_with "MilDef" [JArray [JMap [(txt "y", JInt 0); (txt "s", JString (txt "")); (txt "Enum", JMap [(txt "t", JNull); (txt "u", JNull)])]]])]];
           JArray [str "NextID"; JInt 8]; JMap [(txt "x", JInt 3)];
           JMap [(txt "ID", JDouble 4619567317775286272); (txt "Ref", JMap [(txt "t", JString (txt "r"))]);
                 (txt "l", tagged_with "Mil" [JMap [(txt "y", JInt 4); (txt "Enum", JMap [(txt "u", JString (txt "b"))])]])]]);
        (txt "u", tagged_with "Table" [JArray [JMap [(txt "Ref", JMap [(txt "t", JString (txt "r"))])]]; JMap [(txt "ID", JString (txt "a"))]; JMap [(txt "ID", JString (txt "b"))]])].
Definition wrote_texts := texts [wrote_source; target_table].
Definition wrote_doc : root_obj := Eval vm_compute in match load_root text_addr in_place wrote_texts read_files true with Ok r => r | _ => RootObj [] [] [] [] end.
Definition wrote_def : rootdef 2 := Eval vm_compute in match rootdef_of 2 (ro_default wrote_doc) with Some d => d | None => [] end.
Definition wrote_start : sabun 2 := Eval vm_compute in match sabun_of 2 (ro_sabun wrote_doc) with Some d => d | None => [] end.
Lemma wrote_nodes : NoDup (source_names wrote_texts read_files) /\ zlen (source_names wrote_texts read_files) <= 2 ^ 62 /\
  all_files (everywhere rust_node) wrote_texts read_files /\ all_files (everywhere unique_node) wrote_texts read_files /\ all_files (everywhere counted_node) wrote_texts read_files.
Proof.
  split; [repeat constructor; cbn; intuition discriminate|]. split; [vm_compute; discriminate|]. split; [|split].
  all: intros path content v [E|[E|[]]]; injection E as <- <-; cbn; intros E; injection E as <-; nodes.
  all: try exact Logic.I.
  all: try (vm_compute; repeat constructor; cbn; intuition discriminate).
  all: try (split; [repeat constructor|split; reflexivity]).
  all: try (unfold rust_node, i64_range, u64_range; lia).
Qed.
Lemma wrote_holds : few_rootdef wrote_def /\ holds text_at wrote_def wrote_start wrote_doc.
Proof.
  destruct wrote_nodes as (N1 & N2 & N3 & N4 & N5).
  destruct (loaded_typed text_addr text_at in_place wrote_texts (fun _ => Err) in_place_iterates text_at_addr read_files wrote_doc N1 N2 N3 N4 N5 ltac:(vm_compute; reflexivity) 2%nat wrote_def wrote_start ltac:(vm_compute; reflexivity) ltac:(vm_compute; reflexivity)) as (D & W & T & Co & Fe & Th & V).
  split; [exact Fe|]. split; [vm_compute; reflexivity|]. split; [vm_compute; reflexivity|exact T].
Qed.
Lemma wrote_accessible : exists p, accessible (ro_old wrote_doc) wrote_doc p.
Proof.
  assert (T : tame (ro_default wrote_doc)) by (apply tameb_tame; vm_compute; reflexivity).
  destruct (C66_written (ro_old wrote_doc) _ (tame_speakable _ T)) as (p & D & _). exists p. split; [exact T|exact D].
Qed.
Definition wrote_list : ldef JsonModel.def := match hget !"list" (ro_default wrote_doc) with Some (_, WMList (Def l) _) => l | _ => LDef [] [] false [] [] end.
Definition wrote_l : ldef JsonModel.def := match hget !"l" (ld_members wrote_list) with Some (_, DMil (Def l) _) => l | _ => LDef [] [] false [] [] end.
Lemma wrote_goes : goes (ro_old wrote_doc) (ro_default wrote_doc) (Mil (Entry !"list" 7) !"l" 0) false !"l" wrote_l l_expr.
Proof.
  eapply (goes_mil (ro_old wrote_doc) (ro_default wrote_doc) (Entry !"list" 7) !"list" wrote_list _ !"l" _ wrote_l false 0); [eapply (goes_entry (ro_old wrote_doc) (ro_default wrote_doc) !"list" _ wrote_list false 7)|]; found.
Qed.
Lemma wrote_seizes : seizes (ro_old wrote_doc) (ro_default wrote_doc) [(!"list", 7); (!"l", 0)] !"l" wrote_l
  (do (do (do (do (do (do var"root" !"list_mut" []) !"get_mut" [ENum 7]) !"unwrap" []) !"l_mut" []) !"get_mut" [ENum 0]) !"unwrap" []).
Proof. eapply (seizes_item (ro_old wrote_doc) (ro_default wrote_doc) [(!"list", 7)] !"list" wrote_list _ !"l" _ wrote_l false 0); [eapply (seizes_root (ro_old wrote_doc) (ro_default wrote_doc) !"list" _ wrote_list false 7); found|found]. Qed.

(** After [root.list_mut().get_mut(7).unwrap().l_mut().get_mut(0).unwrap().set_y(v)] the member [y]
    of that item is 9, and the row its enum has is as before. *)
Example C69_case : exists p, accessible (ro_old wrote_doc) wrote_doc p /\ forall told, let G := [(!"root", root_value); (!"v", VOf (CInt 9))] in
  let item := do (do (do (do (do (do var"root" !"list_mut" []) !"get_mut" [ENum 7]) !"unwrap" []) !"l_mut" []) !"get_mut" [ENum 0]) !"unwrap" [] in
  exists d, turns text_at p in_place wrote_doc told G (do item !"set_y" [var"v"]) wrote_def wrote_start d /\
  let t := with_members wrote_doc d in
  (forall tr, evals p in_place t told G (asks l_expr !"y") tr (Ok (some (VOf (CInt 9)), tr))) /\
  ask in_place wrote_doc (Param (Mil (Entry !"list" 7) !"l" 0) !"y") = Ok (Value (Val (CInt 4))) /\
  ask in_place t (EnumIds (Mil (Entry !"list" 7) !"l" 0)) = Ok (Variant !"u" !"b") /\
  ask in_place t (Param (Entry !"list" 7) !"x") = Ok (Value (Val (CInt 1))).
Proof.
  destruct wrote_accessible as (p & A). exists p. split; [exact A|]. intros told G item. destruct wrote_holds as (Few & H).
  assert (HG : has_root G) by reflexivity.
  assert (V : plainly p in_place wrote_doc told G var"v" (as_marked VOf Normal (contents (PInt (Val 9))))) by (intros tr'; apply evals_EV, ev_var; [shut|look]).
  destruct (C69_set (ro_old wrote_doc) in_place wrote_doc told p G text_at wrote_def wrote_start _ _ _ _ !"y" 0 (PInt (Val 0)) Normal (PInt (Val 9)) var"v" A HG H Few wrote_seizes) as (d & Tu & _ & _ & R & U);
    [vm_compute; discriminate|found|reflexivity|exact Logic.I|cbn; unfold i64_range; lia|exact V|].
  exists d. split; [exact Tu|]. intros t. split; [|split; [|split]].
  - intros tr. exact (R _ _ _ tr wrote_goes eq_refl).
  - vm_compute. reflexivity.
  - unfold t. rewrite (U (EnumIds (Mil (Entry !"list" 7) !"l" 0))); [vm_compute; reflexivity|]. intros w Hw. discriminate Hw.
  - unfold t. rewrite (U (Param (Entry !"list" 7) !"x")); [vm_compute; reflexivity|]. intros w Hw. injection Hw as _ K. discriminate K.
Qed.
Lemma text_s : wf_ref (Val !"s").
Proof. split; [repeat constructor; unfold wf_byte; lia|split; vm_compute; reflexivity]. Qed.
(** After [set_enum] with the row [s] of the table [t], the variant [t] of that item leads to the row, and
    the variant [u], which it had before, to nothing. *)
Example C69_follow : exists p, accessible (ro_old wrote_doc) wrote_doc p /\ forall told, let G := [(!"root", root_value)] in
  let item := do (do (do (do (do (do var"root" !"list_mut" []) !"get_mut" [ENum 7]) !"unwrap" []) !"l_mut" []) !"get_mut" [ENum 0]) !"unwrap" [] in
  let w := Mil (Entry !"list" 7) !"l" 0 in
  exists d, turns text_at p in_place wrote_doc told G (do item !"set_enum" [path (kind_type !"l") (to_type_name !"t") [id_text !"t" [!"s"] !"s"]]) wrote_def wrote_start d /\
  let t := with_members wrote_doc d in
  ask in_place wrote_doc (There (Enum w !"t")) = Ok Nothing /\ ask in_place wrote_doc (Param (Ref (Enum w !"u") !"t") !"v") = Ok (Value (Val (CBool true))) /\
  ask in_place t (Param (Enum w !"t") !"v") = Ok (Value (Val (CBool false))) /\ ask in_place t (There (Enum w !"u")) = Ok Nothing.
Proof.
  destruct wrote_accessible as (p & A). exists p. split; [exact A|]. intros told G item w. destruct wrote_holds as (Few & H).
  assert (HG : has_root G) by reflexivity.
  assert (X : exists i q vt j d0 rows it0, In (!"t", (i, (q, vt))) (ld_refs wrote_l) /\ In (!"t", (j, WTable d0 rows [!"s"])) (ro_default wrote_doc) /\ In (!"s", it0) rows).
  { eexists _, _, _, _, _, _, _. split; [|split]; [found|found|]. right. left. reflexivity. }
  destruct X as (i & q & vt & j & d0 & rows & it0 & I & J & Ro).
  destruct (C69_set_enum (ro_old wrote_doc) in_place wrote_doc told p G text_at wrote_def wrote_start _ _ _ _ !"t" (i, (q, vt)) j d0 rows [!"s"] !"s" it0 in_place_iterates A HG H Few wrote_seizes) as (d & Tu & _ & _ & _ & _ & Fo & Ot);
    [vm_compute; discriminate|reflexivity|exact I|exact J|exact Ro|apply text_s|].
  exists d. split; [exact Tu|]. intros t. split; [vm_compute; reflexivity|]. split; [vm_compute; reflexivity|]. split.
  - unfold t. rewrite (Fo _ (Param (Row !"t" !"s") !"v")); [vm_compute; reflexivity|]. apply asked_param, instead_here. exists w. split; reflexivity.
  - apply (Ot !"u"); [discriminate|]. exists w. split; reflexivity.
Qed.
