(** Proofs about sessions. *)
From Verif Require Import Base CompactionModel CompactionSpec StringCompactionModel StringCompactionProofs LinkedModel LinkedSpec LinkedProofs DocModel DiffModel DiffWireModel DiffSpec DiffProofs DiffProofs2 DiffProofs3
  DiffEditSpec DiffEditProofs DiffEndProofs FileNameModel FileNameSpec PhaseModel PhaseSpec TreeModel TreeSpec HistModel HistSpec HistInvProofs HistSaveProofs HistMainProofs IntfModel IntfSpec IntfProofs
  SizeSpec SizeProofs GrownProofs WholeSpec.

(* ------------------------------------------------------------------ *)
(** * Documents that are the same as a document of a definition *)

Lemma same_float_range a b : same_float a b -> u64_range b -> u64_range a.
Proof. intros [->|(Za & _)] R; [exact R|]. destruct Za as [->| ->]; unfold u64_range; lia. Qed.

Lemma same_floats a b : Forall2 same_float a b -> Forall u64_range b -> Forall u64_range a /\ zlen a = zlen b.
Proof.
  induction 1 as [|x y a b S _ IH]; intros R; [auto|]. inversion R as [|? ? Ry R']; subst. destruct (IH R') as (A & B). split; [constructor; [eapply same_float_range; eassumption|exact A]|].
  rewrite !zlen_cons. lia.
Qed.

Lemma fits_same mem mem' p q p0 vt : same_param p q -> held_param mem p -> fits mem' q p0 vt -> fits mem p p0 vt.
Proof.
  intros S H (T & A & W). split; [|split].
  - rewrite <- T. destruct p, q; cbn in S; try contradiction; reflexivity.
  - rewrite <- A. f_equal. destruct p as [[]|[]|[]|[]|[]|[]|[]], q as [[]|[]|[]|[]|[]|[]|[]]; cbn in S; try contradiction; try discriminate; reflexivity.
  - destruct p as [[]|[]|[]|[]|[]|[]|[]], q as [[]|[]|[]|[]|[]|[]|[]]; cbn in S; try contradiction; try discriminate; cbn [wf_param held_param] in *; auto.
    all: first [inversion S; subst; exact W | eapply same_float_range; eassumption | unfold same_arc in S; rewrite S in *; split; [congruence|apply W] |
      destruct W as (W & Z); destruct (same_floats _ _ S W) as (R & E); split; [exact R|lia]].
Qed.

Lemma ids_zlen {A} (l : list (Z * A)) : zlen (ids l) = zlen l.
Proof. unfold zlen, ids. rewrite map_length. reflexivity. Qed.

Section TypedSame.
Variables mem mem' : Z -> list Z.
Context {D L : Type}.
Variables ty ty' : L -> D -> Prop.
Variables held cl : L -> Prop.
Variable same : L -> L -> Prop.
Hypothesis H : forall a b d, same a b -> held a -> cl a -> ty' b d -> ty a d.

Lemma typed_same_item a b d : same_item same a b -> held_item mem held a -> clean_item cl a -> typed_item mem' ty' b d -> typed_item mem ty a d.
Proof.
  intros (Sv & Sr) He (Nv & Nr & Cl) (_ & _ & V & R). split; [exact Nv|]. split; [exact Nr|]. split.
  - intros key v Ev. specialize (Sv key). rewrite Ev in Sv. specialize (He key v Ev). specialize (Cl key). rewrite Ev in Cl. destruct (hget key (it_values b)) as [w|] eqn:Ew; [|contradiction].
    specialize (V key w Ew). cbn in Sv. destruct v as [p|o|t], w as [q|o'|t']; cbn in Sv; try contradiction; cbn [typed_value] in *.
    + destruct V as (id & p0 & vt & G & F). exists id, p0, vt. split; [exact G|]. eapply fits_same; eassumption.
    + subst. exact V.
    + destruct V as (id & d' & u & G & F). exists id, d', u. split; [exact G|]. destruct t as [x|], t' as [y|]; cbn in Sv; try contradiction; auto. eapply H; eauto.
  - intros key q Eq. apply R. rewrite <- Sr. exact Eq.
Qed.

Lemma typed_same_list a b d : same_list true true same a b -> held_list mem held a -> clean_list cl a -> typed_list mem' ty' b d -> typed_list mem ty a d.
Proof.
  intros (Ei & Si & Sn) He (N & Cl) (_ & Fi & U & Z & Fm & Fr & T). specialize (Sn eq_refl).
  split; [exact N|]. split; [rewrite Ei; exact Fi|]. split; [rewrite Sn; exact U|]. split; [rewrite <- ids_zlen, Ei, ids_zlen; exact Z|]. split; [exact Fm|]. split; [exact Fr|].
  intros id it E. specialize (Si id). rewrite E in Si. destruct (lookup id (fst b)) as [it'|] eqn:E'; [|contradiction]. eapply typed_same_item; eauto.
Qed.
End TypedSame.

Lemma typedT_same mem mem' n : forall a b d, sameT true true n a b -> heldT mem n a -> cleanT n a -> typedT mem' n b d -> typedT mem n a d.
Proof. induction n as [|n IH]; intros a b d; cbn [sameT heldT cleanT typedT]; [tauto|]. apply typed_same_list. exact IH. Qed.

Lemma typed_same mem mem' {n} (a b : sabun n) def : same_root true true a b -> held_root mem a -> clean_root a -> typed_root mem' b def -> typed_root mem a def.
Proof.
  intros S He (N & Cl) (_ & T). split; [exact N|]. intros key v Ev. specialize (S key). rewrite Ev in S. specialize (He key v Ev). specialize (Cl key). rewrite Ev in Cl.
  destruct (hget key b) as [w|] eqn:Ew; [|contradiction]. specialize (T key w Ew). destruct v as [p|o], w as [q|o']; cbn in S; try contradiction.
  - destruct T as (id & p0 & vt & G & F). exists id, p0, vt. split; [exact G|]. eapply fits_same; eassumption.
  - destruct T as (id & d & u & G & F). exists id, d, u. split; [exact G|]. destruct o as [x|], o' as [y|]; cbn in S; try contradiction; auto. eapply typedT_same; eauto.
Qed.

(** ** Lists that are not emptied *)

Lemma unemptied_same_list {L} (un : L -> Prop) (same : L -> L -> Prop) a b : (forall x y, same x y -> un y -> un x) ->
  same_list true true same a b -> unemptied_list un b -> unemptied_list un a.
Proof.
  intros H (Ei & Si & Sn) (E & U). split.
  - intros Ea. rewrite (Sn eq_refl). apply E. rewrite Ea in Ei. destruct (fst b); [reflexivity|discriminate].
  - intros id it Ei'. specialize (Si id). rewrite Ei' in Si. destruct (lookup id (fst b)) as [it'|] eqn:E'; [|contradiction]. destruct Si as (Sv & _). specialize (U id it' E').
    intros key l El. specialize (Sv key). rewrite El in Sv. destruct (hget key (it_values it')) as [[| |[l'|]]|] eqn:Ew; try contradiction. eapply H; [exact Sv|]. eapply U; exact Ew.
Qed.
Lemma unemptiedT_same n : forall a b, sameT true true n a b -> unemptiedT n b -> unemptiedT n a.
Proof. induction n as [|n IH]; intros a b; cbn [sameT unemptiedT]; [auto|]. apply unemptied_same_list. exact IH. Qed.
Lemma unemptied_same {n} (a b : sabun n) : same_root true true a b -> unemptied_root b -> unemptied_root a.
Proof.
  intros S U key l E. specialize (S key). rewrite E in S. destruct (hget key b) as [[|[l'|]]|] eqn:Ew; try contradiction. eapply unemptiedT_same; [exact S|]. eapply U; exact Ew.
Qed.

(* ------------------------------------------------------------------ *)
(** * Differences of C14 are differences of a history *)

Section Instance.
Variable mem : Z -> list Z.
Context {n : nat}.
Variable def : rootdef n.
Variable appdiff : sabun n -> list Z -> res (sabun n).
Variable docs : sabun n -> Prop.
Hypothesis Wf : wf_rootdef def.
Hypothesis Small : small_rootdef def.
Hypothesis Un : forall key id d, hget key def <> Some (id, RVMList d true).
Hypothesis Ap : applies mem def appdiff.
Hypothesis Ke : keepable docs.

(** documents in use: those of [docs], wherever they are *)
Definition used (x : sabun n) : Prop :=
  typed_root mem x def /\ counted_root x /\ unemptied_root x /\ size_root x < 2 ^ 35 /\ exists d, docs d /\ same_root true true x d.
Definition as_used (a b : sabun n) : Prop := a = b \/ (used a /\ used b /\ same_root true true a b).
Definition grown_used (a b : sabun n) : Prop := used a /\ used b /\ grown a b.

Lemma docs_used d : docs d -> typed_root mem d def -> counted_root d -> used d.
Proof. intros Do T C. destruct Ke as [K _]. destruct (K d Do). split; [exact T|]. split; [exact C|]. split; [assumption|]. split; [assumption|]. exists d. split; [exact Do|]. apply same_root_refl. Qed.

Lemma as_used_same a b : as_used a b -> same_root true true a b.
Proof. intros [->|(_ & _ & S)]; [apply same_root_refl|exact S]. Qed.

Lemma used_same x y : used y -> same_root true true x y -> clean_root x -> held_root mem x -> used x.
Proof.
  intros (T & C & E & Z & d & Do & S) Sx Cl He. split; [eapply typed_same; eassumption|]. split; [eapply counted_same; [exact C|apply same_root_sym; exact Sx]|].
  split; [eapply unemptied_same; eassumption|]. split; [rewrite (same_root_size true n x y); [exact Z|exact Cl|eapply typed_clean; exact T|exact Sx]|].
  exists d. split; [exact Do|]. eapply same_root_trans; eassumption.
Qed.

Lemma grown_difference a b : grown_used a b -> exists v, get_diff a b def = Ok v /\ zlen v < 2 ^ 36 /\
  forall a', as_used a' a -> exists r, appdiff a' v = Ok r /\ as_used r b.
Proof.
  intros (Ua & Ub & G). pose proof Ua as (Ta & Ca & Ea & Za & da & Da & Sa). pose proof Ub as (Tb & Cb & Eb & Zb & db & Db & Sb).
  pose proof (typed_clean _ _ _ _ Ta) as Cla. pose proof (typed_clean _ _ _ _ Tb) as Clb.
  assert (Nx : next_root true a b). { eapply next_root_same; [apply same_root_sym; exact Sa|apply same_root_sym; exact Sb|]. destruct Ke as [_ K]. apply K; assumption. }
  destruct (later_reproduced mem true true def a b Wf Small Ta Tb (grown_later def a b Un G) (fun _ => Nx)) as (v & Ev & _ & R).
  { apply size_fits; [exact Cla|exact Clb|]. change (2 ^ 58) with 288230376151711744. change (2 ^ 35) with 34359738368 in *. lia. }
  exists v. split; [exact Ev|]. split.
  - pose proof (get_diff_size a b def v Cla Clb Ev). change (2 ^ 36) with 68719476736. change (2 ^ 35) with 34359738368 in *. lia.
  - intros a' S. assert (Ua' : used a') by (destruct S as [->|(U & _)]; assumption). apply as_used_same in S. destruct (R a' S) as (r & Er & Sr).
    destruct (Ap a' v r) as (r' & Er' & Sr' & Cl' & He'); [exact (proj1 Ua')|exact (proj1 (proj2 (proj2 Ua')))|exact Er|eapply unemptied_same; [exact Sr|exact Eb]|].
    exists r'. split; [exact Er'|]. right. assert (S' : same_root true true r' b) by (eapply same_root_trans; eassumption). split; [apply (used_same r' b); assumption|]. split; [exact Ub|exact S'].
Qed.

Lemma used_reproduces : reproduces (fun f t => get_diff f t def) appdiff as_used grown_used.
Proof.
  constructor.
  - intros a. left. reflexivity.
  - intros a b [->|(A & B & S)]; [left; reflexivity|]. right. split; [exact B|]. split; [exact A|]. apply same_root_sym; exact S.
  - intros a b c [->|(A & B & S)] H; [exact H|]. destruct H as [<-|(_ & C & S')]; right; (split; [exact A|]); [split; [exact B|exact S]|]. split; [exact C|]. eapply same_root_trans; eassumption.
  - intros a b c S (B & C & G). split; [destruct S as [->|(U & _)]; assumption|]. split; [exact C|]. eapply grown_root_same; [apply same_root_sym, as_used_same; exact S|apply same_root_refl|exact G].
  - intros a b c (A & B & G) (_ & C & G'). split; [exact A|]. split; [exact C|]. eapply grown_root_trans; eassumption.
  - intros a b. apply grown_difference.
Qed.

(* ------------------------------------------------------------------ *)
(** * Sessions *)

Variable src : sabun n.
Variable op : options.
Hypothesis Built : exists b, build b = Ok op.
Variable junk : list (list Z).
Hypothesis Few : few_rootdef def.
Hypothesis Tsrc : typed_root mem src def.
Hypothesis Csrc : counted_root src.
Hypothesis Lsrc : lists_there def src.
Hypothesis Dsrc : docs src.

Notation doc := (sabun n).
Notation mkdiff := (fun f t => get_diff f t def).
Notation reach := (reach mkdiff appdiff grown_used src op (sound_save op) junk).
Notation session := (session mem def appdiff src op docs junk).
Notation Inv := (Inv appdiff as_used grown_used src op junk).

(** what is known of an object, and of a file *)
Definition good (d : doc) : Prop := typed_root mem d def /\ grown src d.

Lemma grown_there d : grown src d -> lists_there def d.
Proof. intros (K & _) key id ld u G. apply K. eapply Lsrc; exact G. Qed.

Lemma good_used d : good d -> docs d -> used d.
Proof. intros (T & G) Do. apply docs_used; [exact Do|exact T|]. eapply grown_counted; exact G. Qed.

Lemma good_same x d : good d -> as_used x d -> good x.
Proof.
  intros (T & G) S. destruct S as [->|(U & _ & S)]; [split; assumption|]. split; [apply U|]. eapply grown_root_same; [apply same_root_refl|apply same_root_sym; exact S|exact G].
Qed.

Definition knows (s : st doc) (F : list (props * doc)) (o : objects) : Prop :=
  (forall p d, In (p, d) F -> good d /\ docs d) /\
  (forall id d, o id = Some d -> good d /\ forall base d0, s_cur doc s = Some (id, base) -> In (base, d0) F -> grown d0 d).

Lemma knows_edited s F o id d : knows s F o -> o id = Some d -> docs d -> edited grown_used src s F id d.
Proof.
  intros (KF & Ko) Ho Do. destruct (Ko id d Ho) as (Gd & Gb). pose proof (good_used d Gd Do) as Ud. split.
  - split; [apply docs_used; assumption|]. split; [exact Ud|]. apply Gd.
  - intros base d0 Ec I. destruct (KF base d0 I) as (G0 & D0). split; [apply good_used; assumption|]. split; [exact Ud|]. eapply Gb; eassumption.
Qed.

Lemma good_refl d : good d -> grown d d.
Proof. intros (_ & G). apply grown_root_refl. eapply grown_counted; exact G. Qed.

Lemma session_reach k s F o : session k s F o -> Z.of_nat k + 1 < 100000000 -> reach k s F /\ knows s F o.
Proof.
  intros Se. induction Se as [dir Fo|k s F o id d Se IH S Cl He Nc|k s F o id d ops d' Se IH Ho Ok Ca Er|k s F o id p d r s' Se IH I E|k s F o greater id d p s' Se IH Ho Do So E
    |k s F o greater id d s' Se IH Ho Do E|k s F o Se IH|k s F o dir Se IH P|k s F o gone Se IH Gj Gc Gb]; intros Sm.
  - split; [apply reach_start; exact Fo|]. split; [intros ? ? []|discriminate].
  - destruct (IH Sm) as (R & KF & Ko). split; [exact R|]. split; [exact KF|]. intros i x. unfold put. destruct (Z.eqb_spec i id) as [->|]; [|apply Ko]. intros Ex. apply Some_inj in Ex; subst x.
    split; [|intros base d0 Ec; destruct (Nc base Ec)]. split; [eapply typed_same; eassumption|]. eapply grown_root_same; [apply same_root_refl|apply same_root_sym; exact S|]. apply grown_root_refl. exact Csrc.
  - destruct (IH Sm) as (R & KF & Ko). split; [exact R|]. split; [exact KF|]. intros i x. unfold put. destruct (Z.eqb_spec i id) as [->|]; [|apply Ko]. intros Ex. apply Some_inj in Ex; subst x.
    destruct (Ko id d Ho) as ((Td & Gd) & Gbase). destruct (program_edit true mem n def ops Few Un Ok d d' Td (grown_there d Gd) Ca Er) as (Re & _).
    split; [split; [eapply program_typed; eassumption|eapply reached_grown; eassumption]|]. intros base d0 Ec I. eapply reached_grown; [eapply Gbase; eassumption|exact Re].
  - destruct (IH Sm) as (R & KF & Ko). assert (R' : reach k s' F) by (eapply reach_load; eassumption). split; [exact R'|]. split; [exact KF|].
    assert (Q : forall d0, In (p, d0) F -> as_used r d0 /\ s_cur doc s' = Some (id, p)).
    { intros d0 I0. destruct (load_reached mkdiff appdiff as_used grown_used used_reproduces src op Built junk k s F id p d0 R Sm I0) as (r0 & E0 & S0).
      rewrite E in E0. apply pair_equal_spec in E0 as [E0 ->]. apply Ok_inj in E0; subst r0. split; [exact S0|reflexivity]. }
    destruct (Q d I) as (Sr & Ec). intros i x. unfold put. destruct (Z.eqb_spec i id) as [->|Ni].
    + intros Ex. apply Some_inj in Ex; subst x. destruct (KF p d I) as (Gd & _). split; [eapply good_same; eassumption|].
      intros base d0 Ec' I0. rewrite Ec in Ec'. apply Some_inj, pair_equal_spec in Ec' as [_ <-]. destruct (Q d0 I0) as (S0 & _).
      eapply grown_root_same; [apply same_root_refl|apply same_root_sym, as_used_same; exact S0|]. apply good_refl. apply (KF p d0 I0).
    + intros Ex. destruct (Ko i x Ex) as (Gx & _). split; [exact Gx|]. intros base d0 Ec'. rewrite Ec in Ec'. apply Some_inj, pair_equal_spec in Ec' as [Ei _]. congruence.
  - destruct (IH ltac:(lia)) as (R & K). pose proof (knows_edited s F o id d K Ho Do) as Ed. destruct K as (KF & Ko).
    assert (R' : reach (S k) s' (F ++ [(p, d)])) by (eapply reach_save; eassumption). split; [exact R'|].
    assert (KF' : forall q x, In (q, x) (F ++ [(p, d)]) -> good x /\ docs x).
    { intros q x I. apply in_app_or in I as [I|[I|[]]]; [apply (KF q x I)|]. apply pair_equal_spec in I as [_ <-]. destruct (Ko id d Ho) as (Gd & _). split; assumption. }
    split; [exact KF'|].
    assert (Ec : s_cur doc s' = Some (id, p)).
    { assert (J : Inv k s F) by (apply (reach_inv mkdiff appdiff as_used grown_used used_reproduces src op Built); [exact R|lia]).
      destruct (save_step mkdiff appdiff as_used grown_used used_reproduces src op Built junk greater k s F id d J ltac:(lia) Ed) as [(p' & s1 & E' & Ec & _)|[(E' & _)|(r & pd & sv & E' & Nr & _)]];
        rewrite E in E'; apply pair_equal_spec in E' as [E1 E2].
      - apply Ok_inj in E1; subst. exact Ec.
      - discriminate.
      - destruct (Nr p). symmetry. exact E1. }
    intros i x Ex. destruct (Ko i x Ex) as (Gx & _). split; [exact Gx|]. intros base d0 Ec' I0. rewrite Ec in Ec'. apply Some_inj, pair_equal_spec in Ec' as [<- <-].
    rewrite Ho in Ex. apply Some_inj in Ex; subst x.
    destruct (load_reached mkdiff appdiff as_used grown_used used_reproduces src op Built junk (S k) s' _ 0 p d0 R' Sm I0) as (r0 & E0 & S0).
    destruct (load_reached mkdiff appdiff as_used grown_used used_reproduces src op Built junk (S k) s' _ 0 p d R' Sm ltac:(apply in_or_app; right; left; reflexivity)) as (r1 & E1 & S1).
    rewrite E0 in E1. apply pair_equal_spec in E1 as [E1 _]. apply Ok_inj in E1; subst r1.
    eapply grown_root_same; [apply same_root_refl| |apply good_refl; apply (KF' p d0 I0)]. eapply same_root_trans; [apply same_root_sym, as_used_same; exact S0|apply as_used_same; exact S1].
  - destruct (IH Sm) as (R & K). pose proof (knows_edited s F o id d K Ho Do) as Ed. split; [eapply reach_failed; eassumption|].
    assert (J : Inv k s F) by (apply (reach_inv mkdiff appdiff as_used grown_used used_reproduces src op Built); [exact R|lia]).
    destruct (save_step mkdiff appdiff as_used grown_used used_reproduces src op Built junk greater k s F id d J ltac:(lia) Ed) as [(p' & s1 & E' & _)|[(E' & _)|(r & pd & sv & E' & Nr & _)]];
      rewrite E in E'; apply pair_equal_spec in E' as [E1 E2]; [discriminate|subst s'; exact K|subst s'; exact K].
  - destruct (IH Sm) as (R & KF & Ko). split; [apply reach_restart with (1 := R)|]. split; [exact KF|discriminate].
  - destruct (IH Sm) as (R & K). split; [apply reach_order; assumption|exact K].
  - destruct (IH Sm) as (R & KF & Ko). split; [apply reach_remove; assumption|]. split.
    + intros p d I. apply filter_In in I as [I _]. apply (KF p d I).
    + intros id d Ho. destruct (Ko id d Ho) as (Gd & Gb'). split; [exact Gd|]. intros base d0 Ec I. apply filter_In in I as [I _]. eapply Gb'; eassumption.
Qed.

Lemma session_loads k s F o id p d : session k s F o -> Z.of_nat k + 1 < 100000000 -> In (p, d) F ->
  exists r, load_history_file doc appdiff src op id p s = (Ok r, St doc (s_dir doc s) (s_cache doc s) (Some (id, p))) /\ typed_root mem r def /\ same_root true true r d.
Proof.
  intros Se Sm I. destruct (session_reach k s F o Se Sm) as (R & KF & _).
  destruct (load_reached mkdiff appdiff as_used grown_used used_reproduces src op Built junk k s F id p d R Sm I) as (r & E & S). exists r. split; [exact E|].
  split; [|apply as_used_same; exact S]. eapply good_same; [apply (KF p d I)|exact S].
Qed.

Lemma session_saves greater k s F o id d r s' : session k s F o -> Z.of_nat k + 1 < 100000000 -> o id = Some d -> docs d -> limited op ->
  save_history_file doc mkdiff appdiff src op greater None id d s = (r, s') ->
  (exists p, r = Ok p /\ ~ In (filename p) (map fst (s_dir doc s)) /\
     (forall name content, hget name (s_dir doc s) = Some content -> hget name (s_dir doc s') = Some content) /\
     (forall names, Permutation names (map fst (s_dir doc s')) -> exists h, create_file_history names = Ok h /\ get_newest h = Some p)) \/
  (r = Err /\ s' = s /\ exists base, s_cur doc s = Some (id, base) /\ ~ continuable op (map fst F) base).
Proof.
  intros Se Sm Ho Do Lm E. destruct (session_reach k s F o Se Sm) as (R & K). pose proof (knows_edited s F o id d K Ho Do) as Ed.
  destruct (failed_save mkdiff appdiff as_used grown_used used_reproduces src op Built junk greater k s F id d s' r R Sm Ed Lm E) as [(p & ->)|H]; [left|right; exact H].
  exists p. split; [reflexivity|]. eapply (reached_new mkdiff appdiff as_used grown_used used_reproduces src op Built); eassumption.
Qed.

Lemma session_kept k s F o p d : session k s F o -> Z.of_nat k + 1 < 100000000 -> In (p, d) F -> typed_root mem d def.
Proof. intros Se Sm I. destruct (session_reach k s F o Se Sm) as (_ & KF & _). apply (KF p d I). Qed.
Lemma session_typed k s F o id d : session k s F o -> Z.of_nat k + 1 < 100000000 -> o id = Some d -> typed_root mem d def.
Proof. intros Se Sm Ho. destruct (session_reach k s F o Se Sm) as (_ & _ & Ko). apply (Ko id d Ho). Qed.
End Instance.
