(** C73: what is written through the references that accessors give. *)
From Coq Require Import String.
From Verif Require Import Base StringCompactionModel StringCompactionProofs CompactionSpec LinkedModel LinkedSpec DocModel DiffModel DiffSpec DiffProofs DiffProofs2 DiffEditProofs ArchiveModel JsonModel JsonSpec JsonProofs JsonProps ValidModel ValidSpec ValidProps EmbedSpec EmbedProofs LoadSpec SaysSpec SaysProps IntfModel IntfSpec IntfProofs SizeSpec SizeProofs SavedModel SavedProofs ReadModel ReadSpec ReadProps AgainModel AgainSpec AgainProofs GenModel GenSpec GenProofs GenWellProofs GenRunProofs GenCheckProofs GenProps.
From Verif Require EmbedProps.
Import EmbedProps(text_addr, text_at, text_at_addr).
From Verif Require Import CodeSpec CodeNameProofs CodeProps ApiModel TypeSpec TypeProofs TypeGenProofs ReadModel RunModel RunSpec RunProofs RunGenProofs RunWayProofs RunAskProofs RunIdProofs RunProps WroteSpec WroteProofs WroteStepProofs WroteProps ThroughSpec.

Local Notation text := (list Z).
Local Notation "! s" := (txt s%string) (at level 0, s at level 0).
Local Notation "'var' s" := (EVar (txt s%string)) (at level 0, s at level 0).

Lemma overwritten t a new q : type_of q = t -> by_reference t = true -> contents (overwrite t a new q) = written t new (contents q).
Proof. intros <-. destruct q as [[v| |]|[v| |]|[v| |]|[v| |]|[v| |]|[v| |]|[v| |]]; cbn; try discriminate; reflexivity. Qed.
Lemma fits_allows mem q p0 vt : DiffSpec.fits mem q p0 vt -> allows_param vt q.
Proof. intros (_ & A & _). destruct q as [[v| |]|[v| |]|[v| |]|[v| |]|[v| |]|[v| |]|[v| |]], vt; cbn in *; try discriminate; auto. Qed.
Lemma again {A} k (v w : A) m : hset k v (hset k w m) = hset k v m.
Proof. induction m as [|[x y] m IH]; cbn [hset]; [rewrite eqb_bytes_refl; reflexivity|]. destruct (eqb_bytes x k) eqn:E; cbn [hset]; rewrite E; [reflexivity|]. rewrite IH. reflexivity. Qed.

Lemma calls_through x new es os : Forall2 performs es os -> Forall2 (performs_through x new) es os.
Proof. intros F. induction F; constructor; [apply through_call|]; assumption. Qed.

Section Props.
Variable old : list name.
Variable iter : forall A, hmap A -> hmap A.
Variable r : root_obj.
Variable told : effect -> bool.
Variable p : list CodeSpec.item.
Variable G : env.
Variable mem : Z -> list Z.
Context {n : nat}.
Variable def : rootdef n.
Variable f : sabun n.

Local Notation root := (ro_default r).

(** the value a member of an item has *)
Lemma member_value s m (d : ldef (defT m)) it key i p0 vt : spotted mem s m d it -> hget key (ld_members (undef (snd s))) = Some (i, DParam p0 vt) -> DiffSpec.fits mem p0 p0 vt ->
  exists q, DiffSpec.fits mem q p0 vt /\ spot_param s key = Some q /\ hget key (ld_members d) = Some (i, DParam p0 vt) /\
    (hget key (it_values it) = Some (LParam q) \/ hget key (it_values it) = None /\ q = p0).
Proof.
  intros (Pl & D & Ti) Hk Fi. pose proof (def_param m _ d key i p0 vt D Hk) as Hd. pose proof (typed_kinds _ _ _ _ Ti) as K. destruct Ti as (_ & _ & Ti & _).
  unfold spot_param. rewrite Hk, <- Pl. cbn [plain_item plain_item_of ci_values]. rewrite (hget_map (plain_value (plain_list m))).
  destruct (hget key (it_values it)) as [v|] eqn:Gv; [|exists p0; cbn [option_map]; split; [exact Fi|]; split; [reflexivity|]; split; [exact Hd|right; auto]].
  destruct (K _ _ _ _ _ Gv Hd) as (q & ->). destruct (Ti _ _ Gv) as (i' & p1 & vt' & E & F). rewrite Hd in E. injection E as <- <- <-. exists q. cbn [option_map plain_value]. split; [exact F|]. split; [reflexivity|]. split; [exact Hd|left; reflexivity].
Qed.

(** The reference that [e.key_mut()] gives, and writing through it. *)
Theorem C73_write : forall a stem l e s key i p0 vt x new, accessible old r p -> has_root G -> holds mem def f r -> few_rootdef def ->
  seizes old root a stem l e -> item_at r a = Some s -> In (key, (i, DParam p0 vt)) (ld_members l) -> by_reference (type_of p0) = true ->
  DiffSpec.fits mem p0 p0 vt -> ok_write mem (type_of p0) x new ->
  exists c d, get_param s key = Ok c /\
    turns_through mem x new p iter r told G (do e (with_old key (contains (ld_old l) key) ++ !"_mut") []) (as_marked VOf vt c) def f d /\
    let t := with_members r d in holds mem def d t /\ accessible old t p /\
    (forall w stem' e' tr, goes old root w false stem' l e' -> place w = Some a ->
      evals p iter t told G (asks e' (with_old key (contains (ld_old l) key))) tr (Ok (some (as_marked VOf vt (written (type_of p0) new c)), tr))) /\
    unchanged iter r t (fun y => (exists b, c = Val b) -> forall w, y = Param w key -> place w <> Some a).
Proof.
  intros a stem l e s key i p0 vt x new A HG H Few Se E I By Fi Wr.
  pose proof A as (T & _). pose proof (seizes_spot old r T a stem l e Se) as Sp. rewrite E in Sp. destruct (seizes_listed old r a stem l e Se) as (Na & C).
  pose proof (member_get r T stem l key _ (mlisted_listed _ _ _ C) I) as Hk.
  assert (Hk' : hget key (ld_members (undef (snd s))) = Some (i, DParam p0 vt)) by (rewrite Sp; exact Hk).
  assert (X : exists q, DiffSpec.fits mem q p0 vt /\ spot_param s key = Some q).
  { destruct a as [|(k, id) a']; [contradiction|]. destruct (root_reach mem n def f r H _ _ _ _ E) as (i1 & d1 & u1 & l1 & _ & _ & R).
    assert (Y : forall m a d l id, reach (spotted mem s) m a d l id -> exists m d it, spotted mem s m d it).
    { clear. induction m as [|m IH]; intros a d l id; [intros []|]. cbn [reach]. intros (N & it & L & R). destruct a as [|(key, id') a]; [eauto|]. destruct R as (i & d1 & u & l1 & _ & _ & R). eapply IH, R. }
    destruct (Y _ _ _ _ _ R) as (m & d & it & Z). destruct (member_value s m d it key i p0 vt Z Hk' Fi) as (q & F & S & _). eauto. }
  destruct X as (q & Fq & Sq). pose proof (fits_allows _ _ _ _ Fq) as Aq. pose proof (fits_overwrite mem (type_of p0) x new q p0 vt Wr Fq) as Fo. pose proof (fits_allows _ _ _ _ Fo) as Ao.
  assert (Tq : type_of q = type_of p0) by apply Fq. assert (To : type_of (overwrite (type_of p0) x new q) = type_of p0) by apply Fo.
  assert (Gp : get_param s key = Ok (contents q)).
  { unfold get_param. rewrite Hk', Sq. cbn [get_as]. rewrite (proj2 (eqb_type_iff _ _) Tq). apply unwrapped_allowed, Aq. }
  set (q' := overwrite (type_of p0) x new q) in *.
  set (c := CItem (hset key (VParam q') (ci_values (fst s))) (ci_refs (fst s))).
  assert (Do : forall m d it, spotted mem s m d it -> exists it', item_do it d (IWrite key (type_of p0) x new) = Ok (it', true) /\ plain_item m it' = c).
  { intros m d it Z. destruct (member_value s m d it key i p0 vt Z Hk' Fi) as (q1 & F1 & S1 & Hd & V). rewrite Sq in S1. apply Some_inj in S1. subst q1. destruct Z as (Pl & _).
    cbn [item_do]. unfold item_write, item_param_mut.
    assert (W : exists it', (let '(it, r) := (let '(it, o) := match hget key (it_values it) with Some (LParam p) => (it, Some p) | _ => match hget key (ld_members d) with Some (_, DParam p _) => (Item (hset key (LParam p) (it_values it)) (it_refs it), Some p) | _ => (it, None) end end in
        match o with Some p => if eqb_type (type_of p) (type_of p0) then (Item (hset key (LParam (overwrite (type_of p0) x new p)) (it_values it)) (it_refs it), Some (qv_map (fun _ => tt) (contents p))) else (it, None) | None => (it, None) end) in Ok (it, is_some r)) = Ok (it', true)
        /\ it' = Item (hset key (LParam q') (it_values it)) (it_refs it)).
    { destruct V as [-> |(-> & ->)].
      - rewrite (proj2 (eqb_type_iff _ _) Tq). eexists. split; reflexivity.
      - rewrite Hd. rewrite (proj2 (eqb_type_iff _ _) eq_refl). eexists. split; [reflexivity|]. cbn [it_values it_refs]. rewrite again. reflexivity. }
    destruct W as (it' & W & ->). eexists. split; [exact W|]. unfold c. rewrite <- Pl. exact (f_equal (fun m => CItem m (it_refs it)) (hset_map (plain_value (plain_list m)) key (LParam q') (it_values it))). }
  destruct (root_put mem n def f r H a s (OWrite key (type_of p0) x new) (IWrite key (type_of p0) x new) true c E Do) as (d & Ed & W).
  pose proof (opens_run mem n def f r H a s [] E) as O. pose proof (run_app mem n def f _ _ _ _ O Ed) as R.
  assert (Fok : Forall (ok_root_step mem def) (open_steps [] a ++ [step_at a (OWrite key (type_of p0) x new) (IWrite key (type_of p0) x new)])).
  { apply Forall_app. split; [eapply Forall_impl; [|exact O]; cbn beta; tauto|]. constructor; [|constructor]. apply (root_ok mem n def f r H a s _ _ E). intros m d1 it Z. split; [exact Wr|]. intros i1 p1 vt1 H1.
    destruct (member_value s m d1 it key i p0 vt Z Hk' Fi) as (_ & _ & _ & Hd & _). rewrite Hd in H1. injection H1 as <- <- <-. exact Fi. }
  assert (Fg : Forall (generated_root_step def) (open_steps [] a ++ [step_at a (OWrite key (type_of p0) x new) (IWrite key (type_of p0) x new)])).
  { apply Forall_app. split; [eapply Forall_impl; [|exact O]; cbn beta; tauto|]. constructor; [|constructor]. apply (root_generated mem n def f r H a s _ _ E). intros m d1 it _. exact Logic.I. }
  exists (contents q), d. split; [exact Gp|]. split.
  { intros tr. exists (opens a ++ [EWrite a (type_of p0) key]), (open_steps [] a ++ [step_at a (OWrite key (type_of p0) x new) (IWrite key (type_of p0) x new)]). split.
    - eapply evals_R; [eapply C68_mut; [exact A|exact HG|exact Se|exact I|exact By]|]. rewrite E, Gp. reflexivity.
    - split; [apply Forall2_app; [apply calls_through, opens_perform|constructor; [apply through_write|constructor]]|]. split; [exact Fok|]. split; [exact Fg|exact R]. }
  intros t. assert (Ac : accessible old t p) by exact A. split; [|split; [exact Ac|]].
  { destruct H as (Rd & Rs & Tf). split; [exact Rd|]. split; [reflexivity|]. eapply program_typed; [exact Few|exact Fok|exact Tf|exact R]. }
  assert (Mil : forall k, spot_mil (c, snd s) k = spot_mil s k).
  { intros k. unfold spot_mil. cbn [fst snd]. unfold c. cbn [ci_values]. rewrite hget_hset. destruct (eqb_bytes key k) eqn:B; [apply eqb_bytes_eq in B; subst k; rewrite Hk'|]; reflexivity. }
  assert (Cil : forall k, spot_cil (c, snd s) k = spot_cil s k).
  { intros k. unfold spot_cil. cbn [fst snd]. unfold c. cbn [ci_values]. rewrite hget_hset. destruct (eqb_bytes key k) eqn:B; [apply eqb_bytes_eq in B; subst k; rewrite Hk'|]; reflexivity. }
  assert (Gc : get_param (c, snd s) key = Ok (written (type_of p0) new (contents q))).
  { unfold get_param. cbn [snd]. rewrite Hk'. unfold spot_param. cbn [fst]. unfold c. cbn [ci_values]. rewrite hget_hset_same. cbn [get_as]. rewrite (proj2 (eqb_type_iff _ _) To). rewrite (unwrapped_allowed vt q' Ao). unfold q'. rewrite overwritten by assumption. reflexivity. }
  split.
  - intros w stem' e' tr Go Pw. eapply evals_R; [eapply (C68_read old iter t told p G w false stem' l e' key i p0 vt tr Ac HG Go I)|].
    unfold read_at. unfold t. rewrite W. rewrite (proj2 (visit_at iter r a s c E Mil Cil w Pw)). cbn [bind]. rewrite Gc. reflexivity.
  - intros y Ny. unfold t. rewrite W. apply (put_answers iter r a s c E Mil Cil).
    + intros w _. left. reflexivity.
    + intros w k -> Pw. destruct (eqb_bytes key k) eqn:B.
      * apply eqb_bytes_eq in B. subst k. rewrite Gc, Gp. destruct (contents q) as [b| |]; [|reflexivity|reflexivity]. destruct (Ny (ex_intro _ b eq_refl) w eq_refl Pw).
      * unfold get_param. cbn [snd]. destruct (hget k (ld_members (undef (snd s)))) as [[j [p1 vt1|d1|d1 u1]]|]; try reflexivity. f_equal. f_equal. unfold spot_param. cbn [fst snd]. unfold c. cbn [ci_values]. rewrite hget_hset, B. reflexivity.
    + intros w k _ _. reflexivity.
    + intros w _ _. reflexivity.
Qed.

(** The same for a member of the root. *)
Theorem C73_root_write : forall key i p0 vt x new, accessible old r p -> has_root G -> holds mem def f r -> few_rootdef def ->
  In (key, (i, WParam p0 vt)) root -> by_reference (type_of p0) = true -> DiffSpec.fits mem p0 p0 vt -> ok_write mem (type_of p0) x new ->
  exists c d, get_root_param r key = Ok c /\
    turns_through mem x new p iter r told G (do var"root" (with_old key (contains old key) ++ !"_mut") []) (as_marked VOf vt c) def f d /\
    let t := with_members r d in holds mem def d t /\ accessible old t p /\
    (forall tr, evals p iter t told G (do var"root" (with_old key (contains old key)) []) tr (Ok (as_marked VOf vt (written (type_of p0) new c), tr))) /\
    unchanged iter r t (fun y => (exists b, c = Val b) -> y <> RootParam key).
Proof.
  intros key i p0 vt x new A HG H Few I By Fi Wr. pose proof A as (T & _). pose proof (root_get r T key _ I) as Hk. destruct H as (Rd & Rs & Tf). pose proof (is_rootdef_of _ _ _ Rd) as D.
  assert (Hd : hget key def = Some (i, RVParam p0 vt)).
  { pose proof (forall2_hget (fun a b => fst a = fst b /\ is_rootval (is_def n) (snd a) (snd b)) _ _ key D) as M. rewrite Hk in M. destruct (hget key def) as [[j v]|]; [|contradiction]. cbn [fst snd] in M. destruct M as (<- & M).
    destruct v; cbn [is_rootval] in M; try contradiction. destruct M as (<- & <-). reflexivity. }
  assert (V : exists q, DiffSpec.fits mem q p0 vt /\ (hget key f = Some (RParam q) \/ hget key f = None /\ q = p0)).
  { destruct Tf as (_ & Tf). destruct (hget key f) as [v|] eqn:Gv; [|exists p0; auto]. specialize (Tf _ _ Gv). destruct v as [q|o]; cbn beta iota in Tf.
    - destruct Tf as (i' & p1 & vt' & E & F). rewrite Hd in E. injection E as <- <- <-. exists q. auto.
    - destruct Tf as (i' & d1 & u & E & _). congruence. }
  destruct V as (q & Fq & V). pose proof (fits_allows _ _ _ _ Fq) as Aq. pose proof (fits_overwrite mem (type_of p0) x new q p0 vt Wr Fq) as Fo. pose proof (fits_allows _ _ _ _ Fo) as Ao.
  assert (Tq : type_of q = type_of p0) by apply Fq. assert (To : type_of (overwrite (type_of p0) x new q) = type_of p0) by apply Fo.
  assert (Sq : root_obj_param r key = Some q).
  { unfold root_obj_param. rewrite Rs, plain_get, Hk. destruct V as [-> |(-> & ->)]; reflexivity. }
  assert (Gp : get_root_param r key = Ok (contents q)).
  { unfold get_root_param. rewrite Hk, Sq. cbn [get_as]. rewrite (proj2 (eqb_type_iff _ _) Tq). apply unwrapped_allowed, Aq. }
  set (q' := overwrite (type_of p0) x new q) in *.
  assert (E : program_run def f [OWrite key (type_of p0) x new] = Ok (hset key (RParam q') f)).
  { unfold program_run. cbn [mfold root_run]. unfold IntfModel.root_write, root_param_mut. destruct V as [-> |(-> & ->)].
    - rewrite (proj2 (eqb_type_iff _ _) Tq). reflexivity.
    - rewrite Hd. rewrite (proj2 (eqb_type_iff _ _) eq_refl). rewrite again. reflexivity. }
  assert (Fok : Forall (ok_root_step mem def) [OWrite key (type_of p0) x new]).
  { constructor; [|constructor]. split; [exact Wr|]. intros i1 p1 vt1 H1. rewrite Hd in H1. injection H1 as <- <- <-. exact Fi. }
  exists (contents q), (hset key (RParam q') f). split; [exact Gp|]. split; [|intros t; split; [|split; [exact A|split]]].
  - intros tr. exists [EWrite [] (type_of p0) key], [OWrite key (type_of p0) x new]. split; [eapply evals_R; [eapply C68_root_mut; [exact A|exact HG|exact I|exact By]|]; rewrite Gp; reflexivity|].
    split; [constructor; [exact (through_write x new [] (type_of p0) key)|constructor]|]. split; [exact Fok|]. split; [constructor; [exact Logic.I|constructor]|exact E].
  - split; [exact Rd|]. split; [reflexivity|]. eapply program_typed; [exact Few|exact Fok|exact Tf|exact E].
  - intros tr. eapply evals_R; [eapply (proj1 (C68_root old iter t told p G key i p0 vt tr A HG I))|]. unfold get_root_param. change (ro_default t) with root. rewrite Hk. unfold root_obj_param. cbn [t with_members ro_sabun].
    rewrite plain_hset_param, hget_hset_same. cbn [get_as]. rewrite (proj2 (eqb_type_iff _ _) To). rewrite (unwrapped_allowed vt q' Ao). unfold q'. rewrite overwritten by assumption. reflexivity.
  - intros y Ny. assert (Dy : y = RootParam key \/ y <> RootParam key).
    { destruct y as [k|k|w|w k|w k|w|w k]; try (right; discriminate). destruct (eqb_bytes k key) eqn:B; [left; apply eqb_bytes_eq in B; subst k; reflexivity|right; intros K; injection K as ->; rewrite eqb_bytes_refl in B; discriminate]. }
    destruct Dy as [-> |Dy].
    + cbn [ask]. rewrite Gp. unfold get_root_param. change (ro_default t) with root. rewrite Hk. unfold root_obj_param. cbn [t with_members ro_sabun]. rewrite plain_hset_param, hget_hset_same. cbn [get_as]. rewrite (proj2 (eqb_type_iff _ _) To). rewrite (unwrapped_allowed vt q' Ao). unfold q'. rewrite overwritten by assumption.
      destruct (contents q) as [b| |]; [|reflexivity|reflexivity]. destruct (Ny (ex_intro _ b eq_refl) eq_refl).
    + apply (root_answers iter r t key i p0 vt eq_refl Hk); [|exact Dy]. intros k Nk. cbn [t with_members ro_sabun]. rewrite plain_hset_param, Rs. rewrite hget_hset_other by congruence. reflexivity.
Qed.
End Props.
Print Assumptions C73_write.
Print Assumptions C73_root_write.

(* ------------------------------------------------------------------ *)
(** * A case *)

Lemma text_fits s : rust_string (2 ^ 63) s -> wf_param text_at (PString (Val (text_addr s, s))).
Proof. intros R. cbn [wf_param]. split; [symmetry; apply text_at_addr|exact R]. Qed.
(** [root.list_mut().get_mut(7).unwrap().l_mut().get_mut(0).unwrap().s_mut()] gives the text of the
    default.  If it becomes [hi], then that is read, and [y] is as before. *)
Example C73_case : exists p, accessible (ro_old wrote_doc) wrote_doc p /\ forall told, let G := [(!"root", root_value)] in
  let item := do (do (do (do (do (do var"root" !"list_mut" []) !"get_mut" [ENum 7]) !"unwrap" []) !"l_mut" []) !"get_mut" [ENum 0]) !"unwrap" [] in
  exists d, turns_through text_at (text_addr !"hi") !"hi" p in_place wrote_doc told G (do item !"s_mut" []) (VOf (CString [])) wrote_def wrote_start d /\
  let t := with_members wrote_doc d in
  (forall tr, evals p in_place t told G (asks l_expr !"s") tr (Ok (some (VOf (CString !"hi")), tr))) /\
  ask in_place t (Param (Mil (Entry !"list" 7) !"l" 0) !"y") = Ok (Value (Val (CInt 4))).
Proof.
  destruct wrote_accessible as (p & A). exists p. split; [exact A|]. intros told G item. destruct wrote_holds as (Few & H).
  assert (HG : has_root G) by reflexivity.
  destruct (item_at wrote_doc [(!"list", 7); (!"l", 0)]) as [s|] eqn:E; [|vm_compute in E; discriminate E].
  destruct (C73_write (ro_old wrote_doc) in_place wrote_doc told p G text_at wrote_def wrote_start _ _ _ _ s !"s" 1 (PString (Val (text_addr [], []))) Normal (text_addr !"hi") !"hi" A HG H Few wrote_seizes E) as (c & d & Gc & Tu & _ & _ & R & U).
  - found.
  - reflexivity.
  - split; [reflexivity|]. split; [reflexivity|]. apply text_fits. split; [constructor|split; reflexivity].
  - apply text_fits. split; [repeat constructor; unfold wf_byte; lia|split; vm_compute; reflexivity].
  - assert (C : c = Val (CString [])).
    { vm_compute in E. apply Some_inj in E. subst s. vm_compute in Gc. apply Ok_inj in Gc. symmetry. exact Gc. }
    subst c. exists d. split; [exact Tu|]. intros t. split.
    + intros tr. exact (R _ _ _ tr wrote_goes eq_refl).
    + unfold t. rewrite (U (Param (Mil (Entry !"list" 7) !"l" 0) !"y")); [vm_compute; reflexivity|]. intros _ w Hw. injection Hw as _ K. discriminate K.
Qed.
