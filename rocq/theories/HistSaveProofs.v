(** Saving keeps the invariant of a history. *)
From Verif Require Import Base CompactionModel StringCompactionModel StringCompactionProofs FileNameModel FileNameSpec FileNameProofs
  DocModel DiffProofs PhaseModel PhaseSpec PhaseProofs TreeModel TreeSpec TreeProofs HistModel HistSpec HistProofs ChainProofs HistInvProofs.

Section Save.
Context {doc : Type}.
Variable mkdiff : doc -> doc -> res (list Z).
Variable appdiff : doc -> list Z -> res doc.
Variable same later : doc -> doc -> Prop.
Hypothesis Rep : reproduces mkdiff appdiff same later.
Variable src : doc.
Variable op : options.
Hypothesis Built : exists b, build b = Ok op.
Variable junk : list (list Z).

Notation st := (st doc).
Notation maxp := (max_phase op).
Notation cum := (is_cumulative op).
Notation chain := (chain maxp cum).
Notation prev_pos := (prev_pos maxp cum).
Notation hist := (list (props * doc)).
Notation Inv := (Inv appdiff same later src op junk).
Notation cache_ok := (cache_ok same op).

Lemma pre_mono F F' p a : pre src op F p a -> incl F F' -> pre src op F' p a.
Proof. unfold pre. destruct (prev_pos p); [|auto]. intros (b & E & J) H. eauto. Qed.

Lemma inv_add n s F p d header v pd saves a deps c cur' :
  Inv n s F -> Z.of_nat (S n) < 100000000 ->
  valid_props p -> readable p -> after_all (map fst F) p -> (phase p <= maxp)%nat -> p_control p < Z.of_nat (S n) -> Forall (fun x => x < Z.of_nat (S n)) (p_order p) ->
  encode (encode_pdata pd) = Ok header -> length pd = length (p_order p) -> recorded op saves pd ->
  zlen saves <= Z.of_nat (S n) -> total saves <= Z.of_nat (S n) * 2 ^ 36 ->
  ((deps = [] /\ prev_pos p = None /\ a = src) \/ exists b, chain (map fst F) b deps /\ prev_pos p = Some (position b) /\ In (b, a) F) ->
  later a d -> (forall a', same a' a -> exists r, appdiff a' v = Ok r /\ same r d) ->
  (forall q r, In q (map fst F) -> r <> [] -> position p = position q ++ r -> In q deps) ->
  cache_ok c F -> (forall id base, cur' = Some (id, base) -> In base (map fst F) \/ base = p) ->
  Inv (S n) (St doc (hset (filename p) (header ++ v) (s_dir doc s))
    (bt_insert (Z.of_nat (phase p)) (filename p, d) (remove_upper_phase_cache doc c (phase p))) cur') (F ++ [(p, d)]).
Proof.
  intros I Sm Vp Rp Af Ph Sc So Eh Lp Rc Z1 T1 Lk La Ap Pf Kc Hc.
  assert (Np : ~ In p (map fst F)) by (intros J; apply (earlier_irrefl _ (Af p J))).
  destruct (folder_add _ _ _ p (header ++ v) (i_folder _ _ _ _ _ _ _ _ _ I) Vp Rp Np) as [Fo Nn].
  assert (Ef : map fst (F ++ [(p, d)]) = map fst F ++ [p]) by (rewrite map_app; reflexivity).
  assert (Inc : incl F (F ++ [(p, d)])) by (apply incl_appl, incl_refl).
  assert (Incf : incl (map fst F) (map fst F ++ [p])) by (apply incl_appl, incl_refl).
  assert (Names : forall q, In q (map fst F) -> filename q <> filename p).
  { intros q J E. apply Nn. destruct (i_folder _ _ _ _ _ _ _ _ _ I) as (_ & P & _). rewrite P. apply in_or_app. left. rewrite <- E. now apply in_map. }
  assert (Cp : chain (map fst F ++ [p]) p (deps ++ [p])).
  { destruct Lk as [(-> & P & _)|(b & C & P & J)]; [now apply chain_root|]. apply chain_step with b; [assumption| |eapply chain_mono; eassumption].
    apply Incf. eapply fst_in, J. }
  constructor; cbn [s_dir s_cache s_cur]; rewrite ?Ef.
  - exact Fo.
  - apply sorted_app; [apply (i_sorted _ _ _ _ _ _ _ _ _ I)|unfold chronological; constructor; constructor|]. intros x y X [<-|[]]. auto.
  - intros q J. apply in_app_or in J as [J|[<-|[]]]; [|auto]. destruct (i_small _ _ _ _ _ _ _ _ _ I q J) as (A & B & C). split; [assumption|].
    split; [lia|]. eapply Forall_impl; [|exact C]. cbv beta. intros. lia.
  - intros q dq J. apply in_app_or in J as [J|[J|[]]].
    + destruct (i_file _ _ _ _ _ _ _ _ _ I q dq J) as (pd' & header' & v' & saves' & a' & G & E & L & R & S1 & S2 & Pr & La' & Ap').
      exists pd', header', v', saves', a'. rewrite hget_hset_other by (apply Names; eapply fst_in, J).
      repeat split; auto; try lia. eapply pre_mono; eassumption.
    + inversion J; subst q dq. exists pd, header, v, saves, a. rewrite hget_hset_same. repeat split; auto.
      unfold pre. destruct Lk as [(_ & P & ->)|(b & _ & P & J')]; rewrite P; [reflexivity|]. exists b. auto.
  - intros q J. apply in_app_or in J as [J|[<-|[]]]; [|eauto]. destruct (i_chain _ _ _ _ _ _ _ _ _ I q J) as [l C]. exists l. eapply chain_mono; eassumption.
  - assert (Sep : separate (map fst F ++ [p])).
    { apply chronological_separate. apply sorted_app; [apply (i_sorted _ _ _ _ _ _ _ _ _ I)|unfold chronological; constructor; constructor|]. intros x y X [<-|[]]. auto. }
    intros q q' l r J J' Nr E C. apply in_app_or in J' as [J'|[<-|[]]].
    + apply in_app_or in J as [J|[<-|[]]].
      * destruct (i_chain _ _ _ _ _ _ _ _ _ I q' J') as [l' C'].
        replace l with l' by (apply (chain_det _ _ _ _ _ Sep (chain_mono _ _ _ _ _ _ C' Incf) _ C)). eapply (i_prefix _ _ _ _ _ _ _ _ _ I); eassumption.
      * exfalso. pose proof (Af q' J') as B. unfold before in B. rewrite E in B.
        assert (B' : earlier (position p) (position p ++ r)) by (rewrite <- (app_nil_r (position p)) at 1; apply earlier_app, earlier_nil; assumption).
        apply (earlier_irrefl _ (earlier_trans _ _ _ B B')).
    + replace l with (deps ++ [p]) by (apply (chain_det _ _ _ _ _ Sep Cp _ C)). apply in_app_or in J as [J|[<-|[]]]; [|apply in_or_app; right; now left].
      apply in_or_app. left. eapply Pf; eassumption.
  - destruct Kc as [Ks K]. split; [apply bt_insert_sorted, sorted_filter, Ks|]. intros i name x H. apply in_bt_insert in H as [[-> E]|H].
    + inversion E; subst. exists p. repeat split; auto; try apply Vp. intros d' J. apply in_app_or in J as [J|[J|[]]]; [exfalso; apply Np; eapply fst_in, J|].
      inversion J; subst. apply (same_refl _ _ _ _ Rep).
    + unfold remove_upper_phase_cache in H. apply filter_In in H as [H Lt]. cbn [fst] in Lt. apply Z.ltb_lt in Lt.
      destruct (K _ _ _ H) as (p0 & V0 & E0 & Ei & P0 & S0). exists p0. repeat split; auto; try apply V0. intros d' J. apply in_app_or in J as [J|[J|[]]]; [auto|].
      inversion J; subst p0. lia.
  - intros id base E. apply in_or_app. destruct (Hc _ _ E) as [?| ->]; [now left|right; now left].
Qed.

(** what a step leaves when it fails *)
Lemma inv_cache n s F c : Inv n s F -> cache_ok c F -> Inv n (St doc (s_dir doc s) c (s_cur doc s)) F.
Proof. intros [A B C D E G H K] X. constructor; auto. Qed.
Lemma inv_cur n s F cur' : Inv n s F -> (forall id base, cur' = Some (id, base) -> In base (map fst F)) -> Inv n (St doc (s_dir doc s) (s_cache doc s) cur') F.
Proof. intros [A B C D E G H K] X. constructor; auto. Qed.

(** ** The first file of a control number *)

Lemma start_step n s F d : Inv n s F -> Z.of_nat (S n) < 100000000 -> later src d ->
  exists p s', start_new doc mkdiff appdiff src op None d s = (Ok p, s') /\ s_cur doc s' = s_cur doc s /\
    forall cur', (forall id base, cur' = Some (id, base) -> base = p) -> Inv (S n) (St doc (s_dir doc s') (s_cache doc s') cur') (F ++ [(p, d)]).
Proof.
  intros I Sm La. assert (Sm' : Z.of_nat n < 100000000) by lia.
  destruct (inv_tree _ _ _ _ _ _ _ _ _ I _ (Permutation_refl _)) as (h & Ch & T & Lk).
  (* writing at a control number that is not used *)
  assert (W : forall ctl, 0 <= ctl <= Z.of_nat n -> after_all (map fst F) (Props ctl ctl [0] None) -> exists p s',
    write_phase_0 doc mkdiff appdiff src op None ctl d s = (Ok p, s') /\ s_cur doc s' = s_cur doc s /\
    forall cur', (forall id base, cur' = Some (id, base) -> base = p) -> Inv (S n) (St doc (s_dir doc s') (s_cache doc s') cur') (F ++ [(p, d)])).
  { intros ctl Hc Af. set (p := Props ctl ctl [0] None) in *.
    assert (Vp : valid_props p).
    { unfold valid_props, u32. cbn [p p_control p_prev p_order p_tag]. split; [lia|]. split; [lia|]. split; [constructor; [lia|constructor]|]. split; [discriminate|exact Logic.I]. }
    assert (Rp : readable p).
    { unfold readable. cbn [p p_control p_prev p_order p_tag]. split; [reflexivity|]. split; [lia|]. constructor; [lia|constructor]. }
    assert (Fn : calc_filename None ctl None [0] = filename p) by (unfold filename; cbn [p p_control p_prev p_order p_tag]; now rewrite Z.eqb_refl).
    destruct (save_items mkdiff appdiff same later Rep src op Built junk n s F I Sm' s [] src) as (r & s1 & Es & Sr & D1 & C1 & K1);
      [left; auto|reflexivity|apply (i_cache _ _ _ _ _ _ _ _ _ I)|]. cbn [map] in Es.
    pose proof (later_same _ _ _ _ Rep _ _ _ Sr La) as Lr. destruct (difference _ _ _ _ Rep _ _ Lr) as (v & Ev & Lv & Ap).
    assert (Rc : recorded op [(0%nat, zlen v)] (pdata_new (zlen v))) by (constructor; apply zlen_nonneg).
    destruct Built as [b B]. destruct (recorded_kept _ _ _ _ B Rc) as [Ke _].
    assert (M : moderate [(0%nat, zlen v)]) by (split; [cbn [total snd]; lia|change (zlen [(0%nat, zlen v)]) with 1; lia]).
    destruct (pdata_file (pdata_new (zlen v)) v (kept_in_range _ _ Ke M)) as (header & Eh & _); [change (zlen (pdata_new (zlen v))) with 1; lia|].
    exists p. eexists. unfold write_phase_0. cbv zeta. unfold bindM at 1. rewrite Es. unfold bindM at 1, ret at 1. rewrite Ev. unfold bindM at 1, write_phase_file. rewrite Eh.
    unfold bindM at 1, set_cache. cbn [s_dir s_cache s_cur]. rewrite Fn. destruct (analyze_name p Vp) as [An _]. unfold bindM, ret. rewrite (An Rp). cbn [ok_or].
    split; [reflexivity|]. cbn [s_dir s_cache s_cur]. split; [assumption|]. intros cur' Hcur. rewrite D1.
    change 0%nat with (phase p) at 1. change 0%nat with (phase p).
    apply (inv_add n s F p d header v (pdata_new (zlen v)) [(0%nat, zlen v)] src [] (s_cache doc s1) cur'); auto.
    - cbn [p phase p_order length Nat.sub]. lia.
    - cbn [p p_control]. lia.
    - cbn [p p_order]. constructor; [lia|constructor].
    - change (zlen [(0%nat, zlen v)]) with 1. lia.
    - cbn [total snd]. lia.
    - left. split; [reflexivity|]. split; [|reflexivity]. unfold ChainProofs.prev_pos. cbn [p order_last p_order last length Nat.leb]. now rewrite andb_false_r.
    - intros a' Sa. apply Ap. eapply (same_trans _ _ _ _ Rep); [exact Sa|]. now apply (same_sym _ _ _ _ Rep).
    - intros q r0 Jq Nr E. exfalso. pose proof (inv_order _ _ _ _ _ _ _ _ _ I q Jq) as Nq. apply (f_equal (@length Z)) in E. rewrite app_length in E. unfold position in E. cbn [p p_order length] in E.
      destruct (p_order q); [congruence|]. destruct r0; [congruence|]. cbn [length] in E. lia.
    - intros id base E. right. eapply Hcur, E. }
  unfold start_new. rewrite Ch. destruct (get_newest h) as [np|] eqn:En.
  - destruct (tree_of_newest h _ np (inv_all_valid _ _ _ _ _ _ _ _ _ I) T En) as [Jn Max]. destruct (i_small _ _ _ _ _ _ _ _ _ I np Jn) as (_ & Cn & _).
    assert (Vn : valid_props np) by (apply (inv_valid _ _ _ _ _ _ _ _ _ I); assumption). destruct Vn as ([V0 _] & _).
    unfold bindM at 1, ret, u32_inc. destruct (Z.ltb_spec (p_control np + 1) (2 ^ 32)); [|lia]. apply W; [lia|].
    intros q J. unfold before. unfold position at 2. cbn [p_control p_order]. left. destruct (Max q J) as [E|B].
    + unfold position in E. inversion E. lia.
    + unfold before, position in B. cbn [earlier] in B. lia.
  - apply W; [lia|]. apply (tree_of_no_newest h _ (inv_all_valid _ _ _ _ _ _ _ _ _ I) T) in En. rewrite En. intros q [].
Qed.

(** ** Deriving *)

Lemma derive_step greater n s F d h from np : Inv n s F -> Z.of_nat (S n) < 100000000 -> later src d ->
  tree_of h (map fst F) -> looks h (map fst F) -> get_newest h = Some np -> In from (map fst F) -> (forall d0, In (from, d0) F -> later d0 d) ->
  (exists p s', derive_impl doc mkdiff appdiff src op greater None d h from s = (Ok p, s') /\ s_cur doc s' = s_cur doc s /\
    (sound_from op from -> forall cur', (forall id base, cur' = Some (id, base) -> base = p) ->
      Inv (S n) (St doc (s_dir doc s') (s_cache doc s') cur') (F ++ [(p, d)]))) \/
  (exists r pd saves, derive_impl doc mkdiff appdiff src op greater None d h from s = (r, s) /\ (forall p, r <> Ok p) /\ recorded op saves pd /\ moderate saves /\
    forall j, calc_next_phase greater pd op <> Ok j).
Proof.
  intros I Sm Las T Lk En J Lad. assert (Sm' : Z.of_nat n < 100000000) by lia. destruct Built as [b B].
  destruct (in_fst _ _ J) as [df If]. destruct (i_file _ _ _ _ _ _ _ _ _ I _ _ If) as (pd & header0 & v0 & saves & a0 & G & Eh0 & Lpd & Rc & Z0 & T0 & _).
  destruct (header_read op Built n saves pd header0 v0 Sm' Rc Z0 T0 Eh0) as (Mo & vals & Dv & Dp).
  destruct (tree_of_newest h _ np (inv_all_valid _ _ _ _ _ _ _ _ _ I) T En) as [Jn Max]. destruct (i_small _ _ _ _ _ _ _ _ _ I np Jn) as (_ & Cn & _).
  assert (Vn : valid_props np) by (apply (inv_valid _ _ _ _ _ _ _ _ _ I); assumption). destruct Vn as ([V0 _] & _).
  destruct (i_small _ _ _ _ _ _ _ _ _ I from J) as (Phf & Cf & _). pose proof (inv_order _ _ _ _ _ _ _ _ _ I from J) as Nf.
  set (ctl := if props_eqb np from then p_control np else p_control np + 1).
  assert (Ec : (if props_eqb np from then Ok (p_control np) else u32_inc (p_control np)) = Ok ctl).
  { unfold ctl, u32_inc. destruct (props_eqb np from); [reflexivity|]. destruct (Z.ltb_spec (p_control np + 1) (2 ^ 32)); [reflexivity|lia]. }
  destruct (i_chain _ _ _ _ _ _ _ _ _ I from J) as [l C].
  assert (Ea : create_ancestors h from maxp cum = Ok l) by (eapply inv_ancestors; eassumption).
  destruct (calc_next_phase greater pd op) as [j| |] eqn:Ej.
  2,3: right; eexists _, pd, saves; unfold derive_impl; rewrite En; unfold bindM at 1, ret at 1; rewrite Ec; unfold bindM at 1, open; rewrite G; cbn [ok_or];
    unfold bindM at 1, ret at 1; rewrite Dv; unfold bindM at 1, ret at 1; rewrite Dp; unfold bindM at 1, ret at 1; rewrite Ej;
    (split; [reflexivity|]); (split; [discriminate|]); (split; [assumption|]); (split; [assumption|]); discriminate.
  left. destruct (recorded_kept _ _ _ _ B Rc) as [Ke Ll]. destruct (calc_ok _ _ _ _ _ B Ej ltac:(lia) ltac:(lia)) as (J1 & J2 & J3 & _).
  assert (Ln : length (p_order from) = S (phase from)) by (destruct (order_length from Nf); lia).
  destruct (link _ _ _ _ _ _ n s F I Sm from l j ctl J C J1) as (deps & p & a & Ed & Pc & Lp & Fp & Da & Inc & Snd & Pf); [intros; rewrite J3; lia|].
  destruct (save_items mkdiff appdiff same later Rep src op Built junk n s F I Sm' s deps a Da eq_refl (i_cache _ _ _ _ _ _ _ _ _ I)) as (r & s1 & Es & Sr & D1 & C1 & K1).
  assert (La : later a d).
  { destruct Da as [[_ ->]|(b' & Cb & Ib)]; [assumption|].
    assert (Jb : In b' l). { apply Inc. destruct (chain_last _ _ _ _ _ Cb) as [l0 ->]. apply in_or_app. right. now left. }
    destruct (chain_later _ _ _ _ Rep _ _ Built _ _ _ _ I Sm' from l b' df a C J Jb If Ib) as [->|L]; [|eapply (later_trans _ _ _ _ Rep); [exact L|auto]].
    apply Lad, Ib. }
  pose proof (later_same _ _ _ _ Rep _ _ _ Sr La) as Lr. destruct (difference _ _ _ _ Rep _ _ Lr) as (v & Ev & Lv & Ap). pose proof (zlen_nonneg v) as Zv.
  destruct (recorded_next_ok greater b op saves pd (zlen v) B Rc Mo Zv ltac:(lia) j Ej) as (pd' & Ep & Rc').
  assert (Zs : zlen (saves ++ [(j, zlen v)]) <= Z.of_nat (S n)) by (rewrite zlen_app; change (zlen [(j, zlen v)]) with 1; lia).
  assert (Ts : total (saves ++ [(j, zlen v)]) <= Z.of_nat (S n) * 2 ^ 36) by (rewrite total_app; cbn [total snd]; lia).
  destruct (recorded_kept _ _ _ _ B Rc') as [Ke' Ll']. assert (Mo' : moderate (saves ++ [(j, zlen v)])) by (split; lia).
  pose proof (kept_length _ _ Ke') as Lk'. destruct (pdata_file pd' v (kept_in_range _ _ Ke' Mo')) as (header & Eh & _); [unfold zlen in *; lia|].
  assert (Pj : phase p = j) by (unfold phase; lia).
  assert (E : derive_impl doc mkdiff appdiff src op greater None d h from s = (Ok p, St doc (hset (filename p) (header ++ v) (s_dir doc s))
    (bt_insert (Z.of_nat (phase p)) (filename p, d) (remove_upper_phase_cache doc (s_cache doc s1) (phase p))) (s_cur doc s))).
  { unfold derive_impl. rewrite En. unfold bindM at 1, ret at 1. rewrite Ec. unfold bindM at 1, open. rewrite G. cbn [ok_or].
    unfold bindM at 1, ret at 1. rewrite Dv. unfold bindM at 1, ret at 1. rewrite Dp. unfold bindM at 1, ret at 1. rewrite Ej.
    unfold bindM at 1, ret at 1. rewrite Ea. unfold bindM at 1, ret at 1. rewrite Ed. unfold bindM at 1. rewrite Es. unfold bindM at 1, ret at 1. rewrite Ev.
    unfold bindM at 1, ret at 1. rewrite Ep. unfold bindM at 1, write_phase_file. rewrite Eh. unfold bindM at 1, set_cache, ret. cbn [s_dir s_cache s_cur].
    rewrite D1, C1, Pj. reflexivity. }
  destruct (derive_later mkdiff appdiff src op greater None d (map fst F) h from s p _ (inv_all_valid _ _ _ _ _ _ _ _ _ I) T (inv_valid _ _ _ _ _ _ _ _ _ I _ J) Logic.I E) as (Vp & Pt & Af & _).
  exists p. eexists. split; [exact E|]. split; [reflexivity|]. intros So cur' Hcur. cbn [s_dir s_cache].
  assert (Hctl : ctl < Z.of_nat (S n)) by (unfold ctl; destruct (props_eqb np from); lia).
  apply (inv_add n s F p d header v pd' (saves ++ [(j, zlen v)]) a deps (s_cache doc s1) cur'); auto; try lia.
  - split; [assumption|]. split; [lia|]. eapply Forall_impl; [|exact Fp]. cbv beta. intros. lia.
  - unfold pop_and_push in Ep. apply push_ok in Ep as [Ep _]. rewrite firstn_length in Ep. lia.
  - destruct Da as [[Dn ->]|(b' & Cb & Ib)].
    + left. destruct (Snd So) as [[_ P]|(b'' & Cb & _)]; [auto|]. subst deps. destruct (chain_last _ _ _ _ _ Cb) as [l0 El0]. destruct l0; discriminate.
    + right. exists b'. split; [assumption|]. split; [|assumption]. destruct (chain_last _ _ _ _ _ Cb) as [l0 El0].
      destruct (Snd So) as [[Dn _]|(b'' & Cb'' & P)]; [rewrite Dn in El0; destruct l0; discriminate|]. destruct (chain_last _ _ _ _ _ Cb'') as [l1 El1].
      rewrite El0 in El1. apply app_inj_tail in El1 as [_ ->]. assumption.
  - intros a' Sa. apply Ap. eapply (same_trans _ _ _ _ Rep); [exact Sa|]. now apply (same_sym _ _ _ _ Rep).
  - intros q r0 Jq Nr Eq. unfold ctl in Pc. destruct (props_eqb np from) eqn:Enp.
    + apply props_eqb_true in Enp. subst np. apply (Pf q r0 Jq Nr). rewrite <- Pc. exact Eq.
    + exfalso. unfold position in Eq. rewrite Pc in Eq. cbn [app] in Eq. assert (Q : p_control np + 1 = p_control q) by congruence. clear Eq. destruct (Max q Jq) as [X|X].
      * assert (p_control q = p_control np) by (unfold position in X; congruence). lia.
      * unfold before, position in X. cbn [earlier] in X. lia.
  - intros id base Eb. right. eapply Hcur, Eb.
Qed.


(** ** Saving *)

(** the file a full-depth file that is not the newest is continued from is in its
    chain *)
Lemma parent_in_chain n s F h base q l : Inv n s F -> looks h (map fst F) -> In base (map fst F) -> chain (map fst F) base l -> get_parent h base = Some q ->
  In q (map fst F) /\ In q l.
Proof.
  intros I Lk J C G. unfold get_parent in G. pose proof G as G0. apply Lk in G as [Jq P]. split; [assumption|].
  assert (Ob : order_base base <> []) by (intros E; rewrite E, get_props_nil in G0; discriminate).
  pose proof (inv_order _ _ _ _ _ _ _ _ _ I base J) as N. destruct (order_length base N) as [O1 O2].
  inversion C as [? H E|? s1 l' H Js C' E]; subst.
  - exfalso. unfold ChainProofs.prev_pos in H. destruct ((phase base =? maxp)%nat && cum && (0 <? order_last base)); [discriminate|].
    destruct (Nat.leb_spec 2 (length (p_order base))); [discriminate|]. destruct (order_base base); [congruence|]. cbn [length] in O1. lia.
  - apply in_or_app. left. unfold ChainProofs.prev_pos in H. destruct ((phase base =? maxp)%nat && cum && (0 <? order_last base)).
    + apply Some_inj in H. apply (i_prefix _ _ _ _ _ _ _ _ _ I q s1 l' [order_last base - 1] Jq Js); [discriminate| |assumption]. rewrite <- H, P. reflexivity.
    + destruct (2 <=? length (p_order base))%nat; [|discriminate]. apply Some_inj in H. assert (s1 = q).
      { apply (position_inj (map fst F)); auto; [eapply inv_separate; eassumption|congruence]. }
      subst s1. destruct (chain_last _ _ _ _ _ C') as [l0 ->]. apply in_or_app. right. now left.
Qed.

Lemma branch_sound n s F p h np from : Inv n s F -> tree_of h (map fst F) -> looks h (map fst F) -> In p (map fst F) -> get_newest h = Some np ->
  choose_from op h np p = Ok from ->
  (phase p < maxp)%nat \/ p_prev p = p_control p \/ (exists q, In q (map fst F) /\ earlier (position p) (position q)) ->
  (phase from < maxp)%nat \/ p_prev from = p_control from.
Proof.
  intros I T Lk J En Ef H. destruct (i_small _ _ _ _ _ _ _ _ _ I p J) as [Ph _]. unfold choose_from in Ef. destruct (Nat.eqb_spec (phase p) maxp) as [Pm|Pm].
  - destruct (props_eqb p np) eqn:Eb; cbn [andb negb] in Ef.
    + apply Ok_inj in Ef. subst from. apply props_eqb_true in Eb. subst np. destruct H as [?|[?|(q & Jq & L)]]; [auto|auto|].
      exfalso. destruct (tree_of_newest h _ p (inv_all_valid _ _ _ _ _ _ _ _ _ I) T En) as [_ Max]. destruct (Max q Jq) as [X|X].
      * rewrite X in L. apply (earlier_irrefl _ L).
      * apply (earlier_irrefl _ (earlier_trans _ _ _ L X)).
    + destruct (get_parent h p) as [q|] eqn:G; [|discriminate]. cbn [ok_or] in Ef. apply Ok_inj in Ef. subst q. left.
      unfold get_parent in G. apply Lk in G as [Jf P]. pose proof (inv_order _ _ _ _ _ _ _ _ _ I _ J) as N. pose proof (inv_order _ _ _ _ _ _ _ _ _ I _ Jf) as Nf.
      assert (Of : p_order from = order_base p) by (unfold position in P; congruence). destruct (order_length p N) as [A B].
      unfold phase at 1. rewrite Of. rewrite Of in Nf. destruct (order_base p); [congruence|]. cbn [length] in *. lia.
  - cbn [andb] in Ef. apply Ok_inj in Ef. subst from. left. lia.
Qed.

Lemma save_step greater n s F id d : Inv n s F -> Z.of_nat (S n) < 100000000 -> edited later src s F id d ->
  (exists p s', save_history_file doc mkdiff appdiff src op greater None id d s = (Ok p, s') /\ s_cur doc s' = Some (id, p) /\
    (sound_save op s F id -> Inv (S n) s' (F ++ [(p, d)]))) \/
  (save_history_file doc mkdiff appdiff src op greater None id d s = (Err, s) /\ exists base h newest, s_cur doc s = Some (id, base) /\
    create_file_history (map fst (s_dir doc s)) = Ok h /\ get_newest h = Some newest /\ phase base = maxp /\ base <> newest /\ get_parent h base = None) \/
  (exists r pd saves, save_history_file doc mkdiff appdiff src op greater None id d s = (r, s) /\ (forall p, r <> Ok p) /\ recorded op saves pd /\ moderate saves /\
    forall j, calc_next_phase greater pd op <> Ok j).
Proof.
  intros I Sm [Las Led]. unfold save_history_file. destruct (inv_tree _ _ _ _ _ _ _ _ _ I _ (Permutation_refl _)) as (h & Ch & T & Lk).
  assert (Fresh : exists p s', bindM doc (start_new doc mkdiff appdiff src op None d)
    (fun saved => bindM doc (set_cur doc id saved) (fun _ => ret doc (Ok saved))) s = (Ok p, s') /\ s_cur doc s' = Some (id, p) /\
    (sound_save op s F id -> Inv (S n) s' (F ++ [(p, d)]))).
  { destruct (start_step n s F d I Sm Las) as (p & s' & E & _ & Hi). exists p. eexists. unfold bindM at 1. rewrite E. unfold bindM, set_cur, ret.
    split; [reflexivity|]. split; [reflexivity|]. intros _. apply Hi. intros ? ? X. congruence. }
  destruct (s_cur doc s) as [[cur_id base]|] eqn:Ecur; [|left; exact Fresh]. destruct (Z.eqb_spec id cur_id) as [<-|Nid]; [|left; exact Fresh].
  rewrite Ch. destruct (get_newest h) as [np|] eqn:En; [|left; exact Fresh].
  pose proof (i_cur _ _ _ _ _ _ _ _ _ I _ _ Ecur) as Jb. destruct (i_chain _ _ _ _ _ _ _ _ _ I base Jb) as [l C].
  assert (Go : forall from, choose_from op h np base = Ok from -> In from (map fst F) -> In from l ->
    (exists p s', bindM doc (derive_impl doc mkdiff appdiff src op greater None d h from)
      (fun saved => bindM doc (set_cur doc id saved) (fun _ => ret doc (Ok saved))) s = (Ok p, s') /\ s_cur doc s' = Some (id, p) /\
      (sound_save op s F id -> Inv (S n) s' (F ++ [(p, d)]))) \/
    (exists r pd saves, bindM doc (derive_impl doc mkdiff appdiff src op greater None d h from)
      (fun saved => bindM doc (set_cur doc id saved) (fun _ => ret doc (Ok saved))) s = (r, s) /\ (forall p, r <> Ok p) /\ recorded op saves pd /\ moderate saves /\
      forall j, calc_next_phase greater pd op <> Ok j)).
  { intros from Ef Jf Jl. destruct (in_fst _ _ Jb) as [d0 I0].
    destruct (derive_step greater n s F d h from np I Sm Las T Lk En Jf) as [(p & s' & E & _ & Hi)|(r & pd & saves & E & Nr & Rc & Mo & Nj)].
    - intros df If. destruct (chain_later _ _ _ _ Rep _ _ Built _ _ _ _ I ltac:(lia) base l from d0 df C Jb Jl I0 If) as [->|L].
      + apply (Led base df eq_refl If).
      + eapply (later_trans _ _ _ _ Rep); [exact L|]. apply (Led base d0 eq_refl I0).
    - left. exists p. eexists. unfold bindM at 1. rewrite E. unfold bindM, set_cur, ret. split; [reflexivity|]. split; [reflexivity|]. intros So. apply Hi; [|intros ? ? X; congruence].
      unfold sound_from. destruct So as [?|[?|So]]; [auto|auto|]. right. right. eapply (branch_sound n s F base); try eassumption. exact (So base Ecur).
    - right. exists (match r with Ok _ => Panic | Err => Err | Panic => Panic end), pd, saves. unfold bindM at 1. rewrite E. destruct r as [p| |]; [destruct (Nr p eq_refl)| |];
        (split; [reflexivity|]; split; [discriminate|]; auto). }
  unfold bindM at 1, ret at 1. destruct (choose_from op h np base) as [from| |] eqn:Ef.
  - assert (Jf : In from (map fst F) /\ In from l).
    { unfold choose_from in Ef. destruct ((phase base =? maxp)%nat && negb (props_eqb base np)).
      - destruct (get_parent h base) as [q|] eqn:G; [|discriminate]. cbn [ok_or] in Ef. apply Ok_inj in Ef. subst q. eapply parent_in_chain; eassumption.
      - apply Ok_inj in Ef. subst from. split; [assumption|]. destruct (chain_last _ _ _ _ _ C) as [l0 ->]. apply in_or_app. right. now left. }
    destruct (Go from eq_refl (proj1 Jf) (proj2 Jf)) as [?|?]; [left; assumption|right; right; assumption].
  - right. left. split; [reflexivity|]. exists base, h, np. unfold choose_from in Ef. destruct (Nat.eqb_spec (phase base) maxp); [|discriminate].
    destruct (props_eqb base np) eqn:Eb; [discriminate|]. cbn [andb negb] in Ef. destruct (get_parent h base) eqn:G; [discriminate|].
    repeat split; auto. intros X. apply props_eqb_true in X. congruence.
  - exfalso. unfold choose_from in Ef. destruct ((phase base =? maxp)%nat && negb (props_eqb base np)); [|discriminate]. destruct (get_parent h base); discriminate.
Qed.

(** ** Every history *)

Lemma map_fst_filter {A B} (f : A -> bool) (l : list (A * B)) : map fst (filter (fun e => f (fst e)) l) = filter f (map fst l).
Proof. induction l as [|[a b] l IH]; [reflexivity|]. cbn [filter map fst]. destruct (f a); cbn [map fst]; now rewrite IH. Qed.
Lemma filter_map_comm {A B} (g : A -> B) (f : B -> bool) l : filter f (map g l) = map g (filter (fun a => f (g a)) l).
Proof. induction l as [|a l IH]; [reflexivity|]. cbn [filter map]. destruct (f (g a)); cbn [map]; now rewrite IH. Qed.
Lemma filter_perm {A} (f : A -> bool) l m : Permutation l m -> Permutation (filter f l) (filter f m).
Proof.
  induction 1 as [|x l m P IH|x y l|l m k P1 IH1 P2 IH2]; cbn [filter].
  - constructor.
  - destruct (f x); auto.
  - destruct (f x), (f y); try reflexivity. apply perm_swap.
  - etransitivity; eassumption.
Qed.
Lemma filter_sorted {A} (R : A -> A -> Prop) f l : StronglySorted R l -> StronglySorted R (filter f l).
Proof.
  induction 1 as [|x l S IH Fo]; [constructor|]. cbn [filter]. destruct (f x); [|assumption]. constructor; [assumption|].
  rewrite Forall_forall in *. intros y Y. apply filter_In in Y as [Y _]. auto.
Qed.
Lemma hget_filter {A} f k (m : hmap A) : f k = true -> hget k (filter (fun e => f (fst e)) m) = hget k m.
Proof.
  intros Hf. induction m as [|[x a] m IH]; [reflexivity|]. cbn [filter fst hget]. destruct (eqb_bytes x k) eqn:E.
  - pose proof E as E'. apply eqb_bytes_eq in E'. subst. rewrite Hf. cbn [hget]. now rewrite E.
  - destruct (f x); [cbn [hget]; now rewrite E|assumption].
Qed.
Lemma hget_perm {A} k (m m' : hmap A) : NoDup (map fst m) -> Permutation m' m -> hget k m' = hget k m.
Proof.
  intros N P. assert (N' : NoDup (map fst m')) by (eapply Permutation_NoDup; [apply Permutation_map; symmetry; exact P|assumption]).
  destruct (hget k m) as [v|] eqn:E.
  - apply in_hget; [assumption|]. apply hget_in in E. eapply Permutation_in; [symmetry; exact P|assumption].
  - apply hget_none. apply hget_none in E. intros X. apply E. eapply Permutation_in; [apply Permutation_map, P|assumption].
Qed.

Lemma inv_remove n s F gone : Inv n s F -> Z.of_nat n < 100000000 ->
  Forall (fun name => gone name = false) junk ->
  (forall p d h l, In (p, d) F -> gone (filename p) = false ->
     create_file_history (map fst (s_dir doc s)) = Ok h -> create_ancestors h p maxp cum = Ok l -> Forall (fun q => gone (filename q) = false) l) ->
  (forall id base, s_cur doc s = Some (id, base) -> gone (filename base) = false) ->
  Inv n (St doc (filter (fun e => negb (gone (fst e))) (s_dir doc s)) (s_cache doc s) (s_cur doc s))
    (filter (fun e => negb (gone (filename (fst e)))) F).
Proof.
  intros I Sm Gj Gc Gb. set (F' := filter (fun e => negb (gone (filename (fst e)))) F).
  assert (Ef : map fst F' = filter (fun p => negb (gone (filename p))) (map fst F)) by (unfold F'; apply (map_fst_filter (fun p => negb (gone (filename p))))).
  assert (Inc : incl F' F) by (intros e X; apply filter_In in X as [X _]; exact X).
  assert (Kept : forall p, In p (map fst F') <-> In p (map fst F) /\ gone (filename p) = false).
  { intros p. rewrite Ef, filter_In. rewrite negb_true_iff. reflexivity. }
  assert (Kept2 : forall p d, In (p, d) F -> gone (filename p) = false -> In (p, d) F').
  { intros p d X G. apply filter_In. split; [assumption|]. cbn [fst]. now rewrite G. }
  destruct (inv_tree _ _ _ _ _ _ _ _ _ I _ (Permutation_refl _)) as (h & Ch & T & Lk).
  assert (Closed : forall p l, In p (map fst F') -> chain (map fst F) p l -> forall q, In q l -> In q (map fst F')).
  { intros p l Jp C q Q. apply Kept in Jp as [Jp Gp]. destruct (in_fst _ _ Jp) as [d Ip].
    pose proof (Gc p d h l Ip Gp Ch (inv_ancestors _ _ _ _ _ _ _ _ _ I h p l Lk Jp C)) as Fo. rewrite Forall_forall in Fo.
    apply Kept. split; [|auto]. eapply chain_all; [exact Jp|exact C|assumption]. }
  destruct (i_folder _ _ _ _ _ _ _ _ _ I) as (N & P & V & R & Jk).
  constructor; cbn [s_dir s_cache s_cur].
  - unfold folder. rewrite (map_fst_filter (fun k => negb (gone k))). split; [now apply NoDup_filter|]. split; [|].
    + rewrite (filter_perm _ _ _ P), filter_app, filter_map_comm, Ef. replace (filter (fun k => negb (gone k)) junk) with junk; [reflexivity|].
      clear -Gj. induction Gj as [|x l G _ IH]; [reflexivity|]. cbn [filter]. rewrite G. cbn [negb]. now rewrite <- IH.
    + rewrite Ef. split; [|split; [|assumption]]; rewrite Forall_forall in *; intros y Y; apply filter_In in Y as [Y _]; auto.
  - rewrite Ef. apply filter_sorted, (i_sorted _ _ _ _ _ _ _ _ _ I).
  - intros p J. apply Kept in J as [J _]. apply (i_small _ _ _ _ _ _ _ _ _ I p J).
  - intros p d J. pose proof (Inc _ J) as J0. pose proof (fst_in _ _ _ J) as Jp. destruct (i_file _ _ _ _ _ _ _ _ _ I p d J0) as (pd & header & v & saves & a & G & E & L & Rc & S1 & S2 & Pr & La & Ap).
    exists pd, header, v, saves, a. rewrite (hget_filter (fun k => negb (gone k))) by (apply Kept in Jp as [_ Gp]; now rewrite Gp). repeat split; auto.
    unfold pre in *. destruct (prev_pos p) as [pos|] eqn:Pp; [|assumption]. destruct Pr as (b & Eb & Ib). exists b. split; [assumption|].
    apply Kept2; [assumption|]. destruct (i_chain _ _ _ _ _ _ _ _ _ I p (fst_in _ _ _ J0)) as [l C].
    assert (Q : In b l).
    { inversion C as [? H E'|? q l' H Jq C' E']; subst; [congruence|]. apply in_or_app. left. assert (q = b).
      { apply (position_inj (map fst F)); [eapply inv_separate; eassumption|assumption|eapply fst_in, Ib|congruence]. }
      subst q. destruct (chain_last _ _ _ _ _ C') as [l0 ->]. apply in_or_app. right. now left. }
    apply (Closed p l Jp C) in Q. apply Kept in Q as [_ Q]. exact Q.
  - intros p J. pose proof J as J0. apply Kept in J0 as [J0 _]. destruct (i_chain _ _ _ _ _ _ _ _ _ I p J0) as [l C]. exists l.
    eapply chain_weaken; [exact C|]. intros q Q _. eapply Closed; eassumption.
  - intros p q l r J Jq Nr E C. apply Kept in J as [J _]. apply Kept in Jq as [Jq _].
    eapply (i_prefix _ _ _ _ _ _ _ _ _ I); [exact J|exact Jq|exact Nr|exact E|]. eapply chain_mono; [exact C|]. intros x X. apply Kept in X as [X _]. exact X.
  - destruct (i_cache _ _ _ _ _ _ _ _ _ I) as [Ks K]. split; [assumption|]. intros i name x X. destruct (K _ _ _ X) as (p & A & B & C & D & E).
    exists p. repeat split; auto; try apply A.
  - intros id base E. apply Kept. split; [eapply (i_cur _ _ _ _ _ _ _ _ _ I), E|eauto].
Qed.

Lemma reach_inv n s F : reach mkdiff appdiff later src op (sound_save op) junk n s F -> Z.of_nat (S n) < 100000000 -> Inv n s F.
Proof.
  induction 1 as [dir Fo|n s F R IH|n s F dir R IH P|n s F id p d r s' R IH Jp E|n s F greater id d p s' R IH Ed So E|n s F greater id d s' R IH Ed E|n s F gone R IH Gj Gc Gb]; intros Sm.
  - constructor; cbn [s_dir s_cache s_cur map]; try (intros; contradiction); auto; try discriminate.
    + constructor.
    + split; [constructor|intros ? ? ? []].
  - specialize (IH Sm). destruct IH as [A B C D E G H K]. constructor; cbn [s_dir s_cache s_cur]; auto; [|discriminate]. split; [constructor|intros ? ? ? []].
  - specialize (IH Sm). destruct IH as [A B C D E G H K]. destruct A as (N & Q & V & Rd & Jk). constructor; cbn [s_dir s_cache s_cur]; auto.
    + unfold folder. repeat split; auto; [eapply Permutation_NoDup; [apply Permutation_map; symmetry; exact P|assumption]|].
      rewrite <- Q. now apply Permutation_map.
    + intros p d J. destruct (D p d J) as (pd & header & v & saves & a & X). exists pd, header, v, saves, a. now rewrite (hget_perm _ _ _ N P).
  - specialize (IH Sm). destruct (load_ok _ _ _ _ Rep _ _ Built _ _ _ _ IH ltac:(lia) id p d Jp) as (x & E' & _). rewrite E' in E. inversion E; subst. apply inv_cur; [assumption|].
    intros id' base X. inversion X; subst. eapply fst_in, Jp.
  - assert (Sm' : Z.of_nat (S n) < 100000000) by lia. specialize (IH Sm').
    destruct (save_step greater n s F id d IH Sm' Ed) as [(p' & s1 & E' & _ & Hi)|[(E' & _)|(r & pd & saves & E' & Nr & _)]]; rewrite E in E'; inversion E'; subst; auto.
    destruct (Nr p eq_refl).
  - specialize (IH Sm).
    destruct (save_step greater n s F id d IH Sm Ed) as [(p' & s1 & E' & _)|[(E' & _)|(r & pd & saves & E' & _)]]; rewrite E in E'; inversion E'; subst; auto.
  - specialize (IH Sm). apply inv_remove; auto. lia.
Qed.

End Save.
