(** Proofs for C77: loops that write. *)
From Coq Require Import String.
From Verif Require Import Base StringCompactionModel StringCompactionProofs LinkedModel LinkedSpec DocModel DiffModel DiffSpec DiffProofs DiffProofs2 DiffEditProofs ArchiveModel JsonModel JsonSpec ValidModel ValidSpec EmbedSpec EmbedProofs IntfModel IntfSpec IntfProofs SizeSpec SizeProofs SavedModel SavedProofs ReadModel ReadSpec AgainModel AgainSpec AgainProofs GenModel GenSpec GenProofs GenWellProofs GenRunProofs.
From Verif Require Import CodeSpec CodeNameProofs ApiModel TypeSpec TypeProofs TypeGenProofs RunModel RunSpec RunProofs RunGenProofs RunWayProofs RunAskProofs RunProps WroteSpec WroteProofs WroteStepProofs WroteProps ListedSpec ListedProofs ListedAskProofs ListedStepProofs CalledSpec CalledProofs LoopModel LoopSpec LoopProofs.

Local Notation text := (list Z).
Local Notation "! s" := (txt s%string) (at level 0, s at level 0).
Local Notation "'var' s" := (EVar (txt s%string)) (at level 0, s at level 0).

(** * Putting an item where it is in a list *)

Lemma put_item_app b c : forall a x d s, item_below (x, d) a = Some s -> put_item x (a ++ b) c = put_item x a (put_item (fst s) b c).
Proof.
  induction a as [|(k, i) a IH]; intros x d s E; [apply Some_inj in E; subst s; reflexivity|]. destruct (below_cons _ _ _ _ _ E) as (j & d1 & u & l & y & Hd & Hv & Hl & B). cbn [fst snd] in *.
  cbn [app put_item]. rewrite Hv, Hl. rewrite (IH _ _ _ B). reflexivity.
Qed.
Lemma put_root_app r a b c s : item_at r a = Some s -> put_root r (a ++ b) c = put_root r a (put_item (fst s) b c).
Proof.
  destruct a as [|(k, i) a]; [discriminate|]. intros E. destruct (at_cons _ _ _ _ _ E) as (j & d1 & u & l & y & Hd & Hv & Hl & B).
  cbn [app put_root]. rewrite Hv, Hl, (put_item_app b c a _ _ _ B). reflexivity.
Qed.
Lemma list_put r a key d l id x c : list_in r a key = Some (d, Some l) -> lookup id (fst l) = Some x ->
  list_in (put_root r (a ++ [(key, id)]) c) a key = Some (d, Some (assign id c (fst l), snd l)).
Proof.
  intros Li L. destruct a as [|y a].
  - cbn [list_in app put_root] in *. destruct (hget key (ro_default r)) as [[j [p vt|d' rows o'|d' z|d' u]]|] eqn:Hd; try discriminate Li. destruct (hget key (ro_sabun r)) as [[p|o']|]; try discriminate Li.
    injection Li as -> ->. rewrite L. cbn [ro_default ro_sabun put_item]. rewrite Hd, hget_hset_same. reflexivity.
  - cbn [list_in] in Li. destruct (item_at r (y :: a)) as [s|] eqn:At; [|discriminate Li]. rewrite (put_root_app r _ _ _ _ At). cbn [list_in]. rewrite (at_put _ _ _ _ At). cbn [fst snd].
    destruct (hget key (ld_members (undef (snd s)))) as [[j [p vt|d'|d' u]]|]; try discriminate Li. cbn [put_item]. destruct (hget key (ci_values (fst s))) as [[p|z|o']|]; try discriminate Li.
    + injection Li as -> ->. rewrite L. cbn [ci_values]. rewrite hget_hset_same. reflexivity.
    + injection Li as -> <-. discriminate L.
Qed.
Lemma ids_assign {A} id (c : A) l : map fst (assign id c l) = map fst l.
Proof. unfold assign. rewrite map_map. apply map_ext. intros [k x]. cbn [fst]. destruct (k =? id); reflexivity. Qed.
Lemma list_items r a key d l : list_in r a key = Some (d, Some l) -> items_now r a key = fst l.
Proof.
  destruct a as [|x a]; cbn [list_in items_now].
  - destruct (hget key (ro_default r)) as [[j [p vt|d' rows o'|d' x|d' u]]|]; try discriminate. destruct (hget key (ro_sabun r)) as [[p|o']|]; try discriminate. intros E. injection E as _ ->. reflexivity.
  - destruct (item_at r (x :: a)) as [s|]; [|discriminate]. destruct (hget key (ld_members (undef (snd s)))) as [[j [p vt|d'|d' u]]|]; try discriminate.
    destruct (hget key (ci_values (fst s))) as [[p|z|o']|]; try discriminate; intros E; [injection E as _ ->|injection E as _ <-]; reflexivity.
Qed.

(* ------------------------------------------------------------------ *)
(** * Setting a member of the item at hand *)

Section Set_.
Variable old : list name.
Variable iter : forall A, hmap A -> hmap A.
Variable r : root_obj.
Variable told : effect -> bool.
Variable p : list CodeSpec.item.
Variable G : env.
Variable mem : Z -> list Z.
Context {n : nat}.
Variable def : rootdef n.
Variable f : sabun n.
Local Notation root := (ro_default r).

Lemma turn_set a s stem l e key i p0 vt q : accessible old r p -> holds mem def f r -> few_rootdef def -> item_at r a = Some s -> snd s = Def l -> mlisted root stem l ->
  In (key, (i, DParam p0 vt)) (ld_members l) -> type_of q = type_of p0 -> allows_param vt q -> wf_param mem q ->
  (forall tr, evals p iter r told G e tr (Ok (VUnit, tr ++ [ESet a (type_of p0) key (of_qv VOf (contents q))]))) ->
  exists d c, turns mem p iter r told G e def f d /\ with_members r d = put_root r a c /\ holds mem def d (with_members r d) /\
    (forall w, place w = Some a -> ask iter (with_members r d) (Param w key) = Ok (Value (contents q))) /\
    unchanged iter r (with_members r d) (fun x => forall w, x = Param w key -> place w <> Some a).
Proof.
  intros (T & _) H Few At Sp C I Ty Al Wf Ev. pose proof (member_get r T stem l key _ (mlisted_listed _ _ _ C) I) as Hk.
  set (c := CItem (hset key (VParam q) (ci_values (fst s))) (ci_refs (fst s))).
  destruct (root_put mem n def f r H a s (OSet key q) (ISet key q) true c At) as (d & E & W).
  { intros m d it (Pl & D & Ti). rewrite Sp in D. pose proof (def_param m _ d key i p0 vt D Hk) as Hd. pose proof (typed_kinds _ _ _ _ Ti) as K. cbn [item_do]. unfold item_set. rewrite Hd.
    assert (V : verify_set_sabun p0 vt q = true) by (apply verify_iff; split; [exact Ty|exact Al]). rewrite V.
    assert (X : exists it', match hget key (it_values it) with None | Some (LParam _) => Ok (Item (hset key (LParam q) (it_values it)) (it_refs it), true) | Some _ => Panic end = Ok (it', true) /\ it' = Item (hset key (LParam q) (it_values it)) (it_refs it)).
    { destruct (hget key (it_values it)) as [v|] eqn:Gv; [|eexists; split; reflexivity]. destruct (K _ _ _ _ _ Gv Hd) as (q' & ->). eexists; split; reflexivity. }
    destruct X as (it' & -> & ->). eexists. split; [reflexivity|]. unfold c. rewrite <- Pl. exact (f_equal (fun m => CItem m (it_refs it)) (hset_map (plain_value (plain_list m)) key (LParam q) (it_values it))). }
  assert (Fo : Forall (ok_root_step mem def) [step_at a (OSet key q) (ISet key q)]).
  { constructor; [|constructor]. apply (root_ok mem n def f r H a s _ _ At). intros m d' it _. exact Wf. }
  assert (Fg : Forall (generated_root_step def) [step_at a (OSet key q) (ISet key q)]).
  { constructor; [|constructor]. apply (root_generated mem n def f r H a s _ _ At). intros m d' it _. exact Logic.I. }
  assert (R : program_run def f [step_at a (OSet key q) (ISet key q)] = Ok d) by (unfold program_run; cbn [mfold]; rewrite E; reflexivity).
  assert (Mil : forall k, spot_mil (c, snd s) k = spot_mil s k).
  { intros k. unfold spot_mil. cbn [fst snd]. unfold c. cbn [ci_values]. rewrite Sp. cbn [undef]. rewrite hget_hset. destruct (eqb_bytes key k) eqn:B; [apply eqb_bytes_eq in B; subst k; rewrite Hk|]; reflexivity. }
  assert (Cil : forall k, spot_cil (c, snd s) k = spot_cil s k).
  { intros k. unfold spot_cil. cbn [fst snd]. unfold c. cbn [ci_values]. rewrite Sp. cbn [undef]. rewrite hget_hset. destruct (eqb_bytes key k) eqn:B; [apply eqb_bytes_eq in B; subst k; rewrite Hk|]; reflexivity. }
  exists d, c. split; [|split; [exact W|split; [|split]]].
  - intros tr. eexists _, _. split; [apply Ev|]. split; [constructor; [apply performs_set, Ty|constructor]|]. split; [exact Fo|]. split; [exact Fg|exact R].
  - destruct H as (Rd & Rs & Tp). split; [exact Rd|]. split; [reflexivity|]. eapply program_typed; [exact Few|exact Fo|exact Tp|exact R].
  - intros w Pw. rewrite W. cbn [ask]. unfold at_item. rewrite (proj2 (visit_at iter r a s c At Mil Cil w Pw)). cbn [bind]. unfold get_param. cbn [snd]. rewrite Sp. cbn [undef]. rewrite Hk. unfold spot_param. cbn [fst]. unfold c. cbn [ci_values]. rewrite hget_hset_same.
    cbn [get_as]. rewrite (proj2 (eqb_type_iff _ _) Ty). rewrite (unwrapped_allowed vt q Al). reflexivity.
  - intros x Nx. rewrite W. apply (put_answers iter r a s c At Mil Cil).
    + intros w _. left. reflexivity.
    + intros w k -> Pw. unfold get_param. cbn [snd]. rewrite Sp. cbn [undef]. destruct (hget k (ld_members l)) as [[j [p1 vt1|d1|d1 u1]]|]; try reflexivity. f_equal. f_equal. unfold spot_param. cbn [fst]. unfold c. cbn [ci_values]. rewrite hget_hset. rewrite eqb_bytes_neq; [rewrite Sp; reflexivity|].
      intros <-. exact (Nx w eq_refl Pw).
    + intros w k _ _. reflexivity.
    + intros w _ _. reflexivity.
Qed.
End Set_.

(* ------------------------------------------------------------------ *)
(** * The loop *)

Section Loop.
Variable old : list name.
Variable iter : forall A, hmap A -> hmap A.
Variable r : root_obj.
Variable told : effect -> bool.
Variable p : list CodeSpec.item.
Variable G : env.
Variable mem : Z -> list Z.
Context {n : nat}.
Variable def : rootdef n.
Local Notation root := (ro_default r).
Variable a : loc.
Variable key k : name.
Variable l : ldef JsonModel.def.
Variable i : Z.
Variable p0 : param.
Variable vt : var_type.
Variable q : Z -> param.
Variable ea : expr.
Variable was : list Z.
Variable next : Z.
Hypothesis A : accessible old r p.
Hypothesis Few : few_rootdef def.
Hypothesis C : mlisted root key l.
Hypothesis I : In (k, (i, DParam p0 vt)) (ld_members l).
Hypothesis Q : forall id, In id was -> type_of (q id) = type_of p0 /\ allows_param vt (q id) /\ wf_param mem (q id).
Hypothesis Ea : loop_gives mem p iter r told G def a key k l was ea (fun id => as_marked VOf vt (contents (q id))).
Hypothesis N : NoDup was.

Lemma loop_set : forall todo past (f0 : sabun n) its, holds mem def f0 (with_members r f0) -> list_in (with_members r f0) a key = Some (Def l, Some (its, next)) -> map fst its = was -> was = past ++ todo ->
  unchanged iter r (with_members r f0) (elsewhere a key k past) ->
  (forall id w, In id past -> place w = Some (a ++ [(key, id)]) -> ask iter (with_members r f0) (Param w k) = Ok (Value (contents (q id)))) ->
  exists d its', for_each mem p iter r told G (do var"x" (!"set_" ++ with_old k (contains (ld_old l) k)) [ea]) def f0 (MIter !"MItemMut" (mitem_type key) a key (Def l) (hd_error todo)) d /\
    holds mem def d (with_members r d) /\ list_in (with_members r d) a key = Some (Def l, Some (its', next)) /\ map fst its' = was /\ unchanged iter r (with_members r d) (elsewhere a key k was) /\
    forall id w, In id was -> place w = Some (a ++ [(key, id)]) -> ask iter (with_members r d) (Param w k) = Ok (Value (contents (q id))).
Proof.
  pose proof A as (T & parts & D & Ep).
  induction todo as [|id todo IH]; intros past f0 its H Li Ids E U Rd.
  - rewrite app_nil_r in E. subst past. exists f0, its. cbn [hd_error]. split; [|split; [exact H|split; [exact Li|split; [exact Ids|split; [exact U|exact Rd]]]]].
    eapply each_end. intros tr. exists O. intros j _. reflexivity.
  - set (R := with_members r f0) in *. assert (Df : ro_default R = root) by reflexivity. assert (AR : accessible old R p) by exact A.
    assert (Iid : In id was) by (rewrite E; apply in_or_app; right; left; reflexivity).
    assert (Nid : ~ In id past) by (rewrite E in N; apply NoDup_remove_2 in N; intros X; apply N, in_or_app; left; exact X).
    assert (X : exists c, lookup id its = Some c). { assert (X : is_some (lookup id its) = true) by (apply lookup_ids; rewrite Ids; exact Iid). destruct (lookup id its) as [c|]; [exists c; reflexivity|discriminate X]. }
    destruct X as (c & L). pose proof (item_in_list R a key (Def l) (its, next) id Li) as At. cbn [fst] in At. unfold mlist_item in At. rewrite L in At. cbn [option_map] in At.
    pose proof (list_items _ _ _ _ _ Li) as Now. cbn [fst] in Now.
    set (b := a ++ [(key, id)]) in *. set (x := VGuard !"MItemMut" (Some (mitem_type key)) (item_value (mitem_type key) b (c, Def l))).
    assert (Ev : forall tr, evals p iter R told (in_loop G a key l id c) (do var"x" (!"set_" ++ with_old k (contains (ld_old l) k)) [ea]) tr (Ok (VUnit, tr ++ [ESet b (type_of p0) k (of_qv VOf (contents (q id)))]))).
    { intros tr. assert (Ip : incl past was) by (rewrite E; intros y Y; apply in_or_app; left; exact Y).
      pose proof (Ea f0 past id c Iid Ip Nid H U At tr) as Eid. rewrite Ep in Eid |- *. apply evals_EV. unfold do. eapply ev_call1; [apply ev_var; [shut|reflexivity]|exact Eid|].
      eapply (call_set old iter R told T parts D key l k i p0 vt (contents (q id)) b (c, Def l)); [exact C|exact I|apply allows_unwrapped, allows_contents, (Q id Iid)|reflexivity]. }
    destruct (Q id Iid) as (Ty & Al & Wf).
    destruct (turn_set old iter R told p (in_loop G a key l id c) mem def f0 b (c, Def l) key l _ k i p0 vt (q id) AR H Few At eq_refl C I Ty Al Wf Ev) as (f1 & c1 & Tu & W & H1 & Rd1 & U1).
    change (with_members R f1) with (with_members r f1) in W, H1, Rd1, U1.
    assert (Li1 : list_in (with_members r f1) a key = Some (Def l, Some (assign id c1 its, next))) by (rewrite W; exact (list_put R a key (Def l) (its, next) id c c1 Li L)).
    assert (Inj : forall id', a ++ [(key, id')] = b -> id' = id) by (intros id' Eb; apply app_inv_head in Eb; injection Eb as ->; reflexivity).
    destruct (IH (past ++ [id]) f1 (assign id c1 its) H1 Li1) as (d & its' & Fe & Rest).
    + rewrite ids_assign. exact Ids.
    + rewrite <- app_assoc. exact E.
    + intros y Y. rewrite (U1 y); [apply U|].
      * intros w id' Id' Ey. apply (Y w id'); [apply in_or_app; left; exact Id'|exact Ey].
      * intros w Ey. apply (Y w id); [apply in_or_app; right; left; reflexivity|exact Ey].
    + intros id' w Id' Pw. apply in_app_or in Id' as [Id'|[<-|[]]]; [|exact (Rd1 w Pw)]. rewrite (U1 (Param w k)); [exact (Rd id' w Id' Pw)|].
      intros w' Ew. injection Ew as <-. rewrite Pw. intros Eb. injection Eb as Eb. apply Inj in Eb. subst id'. contradiction.
    + exists d, its'. split; [|exact Rest]. cbn [hd_error].
      eapply (each_item mem p iter r told G _ def f0 _ id x (MIter !"MItemMut" (mitem_type key) a key (Def l) (hd_error todo)) f1 d); [|exact Tu|exact Fe].
      assert (B : node_behind id (order R false !"MItemMut" a key) = hd_error todo).
      { unfold order. cbn [andb]. rewrite Now. rewrite E in Ids. apply map_eq_app in Ids as (m1 & m & -> & M1 & M2). destruct m as [|(z, c0) m2]; [discriminate M2|]. cbn [map fst] in M2. injection M2 as -> M2.
        rewrite behind_split by (rewrite M1; exact Nid). rewrite end_ids, M2. reflexivity. }
      rewrite <- B. apply (hand_item p iter R told false !"MItemMut" (mitem_type key) a key (Def l) (fun id c => VGuard !"MItemMut" (Some (mitem_type key)) (item_value (mitem_type key) (a ++ [(key, id)]) (c, Def l)))).
      * intros id' c' w. rewrite Ep. apply (converted_rule parts iter R told _ _ !"MItemPtr"). eapply (mitem_from old root T parts D); exact C.
      * rewrite Now. exact L.
Qed.
End Loop.
