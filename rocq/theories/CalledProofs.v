(** Proofs for C71. *)
From Coq Require Import String.
From Verif Require Import Base StringCompactionModel StringCompactionProofs LinkedModel LinkedSpec LinkedProofs DocModel DiffModel DiffSpec DiffProofs DiffProofs2 DiffEditProofs ArchiveModel JsonModel JsonSpec ValidModel ValidSpec EmbedSpec EmbedProofs IntfModel IntfSpec IntfProofs SizeSpec SizeProofs SavedModel SavedProofs ReadModel AgainModel AgainSpec AgainProofs GenModel GenSpec GenProofs GenWellProofs GenRunProofs CodeSpec CodeNameProofs ApiModel TypeSpec TypeProofs TypeGenProofs RunModel RunSpec RunProofs RunGenProofs RunWayProofs RunAskProofs RunProps WroteSpec WroteProofs WroteStepProofs ListedSpec ListedProofs ListedAskProofs ListedStepProofs CalledSpec.

Local Notation text := (list Z).
Local Notation "! s" := (txt s%string) (at level 0, s at level 0).

(* ------------------------------------------------------------------ *)
(** * Opening a list and then changing it *)

Lemma assign_again {A} id (v w : A) l : assign id v (assign id w l) = assign id v l.
Proof. unfold assign. rewrite map_map. apply map_ext. intros [k x]. cbn [fst]. destruct (k =? id) eqn:E; cbn [fst]; rewrite E; reflexivity. Qed.

Lemma open_idem {D L} (it it' : DocModel.item L) (d : ldef D) key (empty : D -> L) o : item_open it d key empty = (it', o) -> item_open it' d key empty = (it', o).
Proof.
  unfold item_open. destruct (hget key (ld_members d)) as [[i [p vt|d'|d' u]]|] eqn:Hd; try (intros E; apply pair_equal_spec in E as [<- <-]; rewrite ?Hd; reflexivity).
  destruct (hget key (it_values it)) as [[p|x|[l|]]|] eqn:Hv; intros E; apply pair_equal_spec in E as [<- <-]; rewrite ?Hd, ?Hv; cbn [it_values]; rewrite ?hget_hset_same; reflexivity.
Qed.
Lemma open_there {D L} (it : DocModel.item L) (d : ldef D) key (empty : D -> L) i d1 u l1 : hget key (ld_members d) = Some (i, DMil d1 u) -> hget key (it_values it) = Some (LMil (Some l1)) -> item_open it d key empty = (it, Some (d1, l1)).
Proof. intros Hd Hv. unfold item_open. rewrite Hd, Hv. reflexivity. Qed.
Lemma lookup_assign_same {A} id (v w : A) l : lookup id l = Some w -> lookup id (assign id v l) = Some v.
Proof.
  induction l as [|(k, x) l IH]; [discriminate|]. cbn [lookup assign map fst]. destruct (Z.eqb_spec id k) as [->|N]; cbn [lookup fst].
  - intros _. rewrite !Z.eqb_refl. cbn [lookup fst]. rewrite ?Z.eqb_refl. reflexivity.
  - destruct (Z.eqb_spec k id) as [->|_]; [contradiction|]. cbn [lookup]. destruct (Z.eqb_spec id k) as [->|_]; [contradiction|]. exact IH.
Qed.

Lemma run_into' n id key st (d : ldef (defT n)) (l : list (Z * DocModel.item (mlistT n))) nx it it1 (d1 : defT n) (l1 : mlistT n) : lookup id l = Some it -> item_open it d key (empty_list n) = (it1, Some (d1, l1)) ->
  list_run (S n) (Into id key st) d (l, nx) = ('(l2, b) <- list_run n st d1 l1 ; Ok ((assign id (DocModel.Item (hset key (LMil (Some l2)) (it_values it1)) (it_refs it1)) l, nx), b)).
Proof.
  intros L E. transitivity (match lookup id l with
    | None => Ok ((l, nx), false)
    | Some it => match item_open it d key (empty_list n) with
                 | (it, None) => Ok ((l, nx), false)
                 | (it, Some (d', l')) => '(l', b) <- list_run n st d' l' ; Ok ((assign id (DocModel.Item (hset key (LMil (Some l')) (it_values it)) (it_refs it)) l, nx), b)
                 end
    end); [reflexivity|]. rewrite L, E. reflexivity.
Qed.
Lemma run_item n id o (d : ldef (defT n)) (l : list (Z * DocModel.item (mlistT n))) nx it it1 b : lookup id l = Some it -> item_do it d o = Ok (it1, b) ->
  list_run (S n) (OnItem id o) d (l, nx) = Ok ((assign id it1 l, nx), b).
Proof.
  intros L E. transitivity (match lookup id l with
          | None => Ok ((l, nx), false)
          | Some it => '(it, b) <- item_do it d o ; Ok ((assign id it l, nx), b)
          end); [reflexivity|]. rewrite L, E. reflexivity.
Qed.

Lemma reach_open key op n : forall a d l id, reach (fun m d it => exists it1 x, item_open it d key (empty_list m) = (it1, Some x)) n a d l id ->
  exists l1, list_run n (step_below id a (inr (IOpen key))) d l = Ok (l1, true) /\ list_run n (list_below id a key op) d l1 = list_run n (list_below id a key op) d l.
Proof.
  induction n as [|n IH]; intros a d l id; [intros []|]. change (mlistT (S n)) with (mlist (DocModel.item (mlistT n))) in l. change (defT (S n)) with (ldef (defT n)) in d.
  destruct l as [l nx]. cbn [reach]. intros (N & it & L & R). cbn [fst] in N, L. destruct a as [|(k, id') a].
  - destruct R as (it1 & (d1 & l1) & E). exists (assign id it1 l, nx). split.
    + cbn [step_below]. apply (run_item n id (IOpen key) d l nx it it1 true L). cbn [item_do]. rewrite E. reflexivity.
    + cbn [list_below]. rewrite (run_into' n id key (OnList op) d (assign id it1 l) nx it1 it1 d1 l1 (lookup_assign_same _ _ _ _ L) (open_idem _ _ _ _ _ _ E)).
      rewrite (run_into' n id key (OnList op) d l nx it it1 d1 l1 L E). destruct (list_run n (OnList op) d1 l1) as [[l2 b]| |]; [|reflexivity|reflexivity]. cbn [bind]. rewrite assign_again. reflexivity.
  - destruct R as (i & d1 & u & l1 & Hd & Hv & R). destruct (IH a d1 l1 id' R) as (l2 & E1 & E2).
    assert (O1 : item_open it d k (empty_list n) = (it, Some (d1, l1))) by exact (open_there it d k (empty_list n) i d1 u l1 Hd Hv).
    set (it2 := DocModel.Item (hset k (LMil (Some l2)) (it_values it)) (it_refs it)). exists (assign id it2 l, nx).
    assert (O2 : item_open it2 d k (empty_list n) = (it2, Some (d1, l2))) by exact (open_there it2 d k (empty_list n) i d1 u l2 Hd (hget_hset_same _ _ _)).
    split.
    + cbn [step_below]. rewrite (run_into' n id k _ d l nx it it d1 l1 L O1), E1. reflexivity.
    + cbn [list_below]. rewrite (run_into' n id k _ d _ nx it2 it2 d1 l2 (lookup_assign_same _ _ _ _ L) O2), (run_into' n id k _ d l nx it it d1 l1 L O1), E2.
      destruct (list_run n (list_below id' a key op) d1 l1) as [[l3 b]| |]; [|reflexivity|reflexivity]. cbn [bind]. rewrite assign_again. unfold it2. cbn [it_values it_refs]. rewrite hset_again. reflexivity.
Qed.
Lemma generated_list_below n : forall id a key o d, generated_step n (list_below id a key o) d.
Proof.
  induction n as [|n IH]; intros id a key o d; [exact Logic.I|]. destruct a as [|(k, id') a]; cbn [list_below generated_step]; intros i d' u _; [destruct n; exact Logic.I|apply IH].
Qed.
Lemma generated_list_step n (def : rootdef n) a key o : generated_root_step def (list_step a key o).
Proof. destruct a as [|(k, id) a]; cbn [list_step generated_root_step]; intros i d u _; [destruct n; exact Logic.I|apply generated_list_below]. Qed.

Section Open.
Variable mem : Z -> list Z.
Context {n : nat}.
Variable def : rootdef n.
Variable f : sabun n.
Variable r : root_obj.
Hypothesis H : holds mem def f r.

Lemma open_then a key d o op : list_in r a key = Some (d, o) ->
  ok_root_step mem def (step_at a (OOpen key) (IOpen key)) /\ generated_root_step def (step_at a (OOpen key) (IOpen key)) /\
  Forall (fun o => root_run def f o = Ok (f, true) /\ ok_root_step mem def o /\ generated_root_step def o) (open_steps [] a) /\
  exists f1, root_run def f (step_at a (OOpen key) (IOpen key)) = Ok (f1, true) /\ root_run def f1 (list_step a key op) = root_run def f (list_step a key op).
Proof.
  intros Li. destruct a as [|(k, id) a].
  - split; [exact Logic.I|]. split; [exact Logic.I|]. split; [constructor|].
    pose proof H as (Rd & Rs & T). apply is_rootdef_of in Rd. cbn [list_in] in Li. destruct (hget key (ro_default r)) as [[j [p vt|d' rows o'|d' x|d' u]]|] eqn:Hd; try discriminate Li.
    pose proof (forall2_hget (fun a b => fst a = fst b /\ is_rootval (is_def n) (snd a) (snd b)) _ _ key Rd) as M. rewrite Hd in M. destruct (hget key def) as [[j' v]|] eqn:Hk; [|contradiction].
    cbn [fst snd] in M. destruct M as (<- & M). destruct v as [p vt| | |d0 u']; cbn [is_rootval] in M; try contradiction. clear Li M.
    cbn [step_at list_step root_run]. unfold root_open. rewrite Hk.
    assert (Q : forall g, g = hset key (DocModel.RMut (Some (empty_list n d0))) f -> forall x, hget key g = Some (DocModel.RMut (Some x)) -> x = empty_list n d0).
    { intros g -> x. rewrite hget_hset_same. intros E. injection E as <-. reflexivity. }
    destruct (hget key f) as [[p|[l|]]|] eqn:Hf; eexists; (split; [reflexivity|]); rewrite ?hget_hset_same, ?Hf; try reflexivity;
      (destruct (list_run n (OnList op) d0 (empty_list n d0)) as [[l2 b]| |]; [|reflexivity|reflexivity]; cbn [bind]; rewrite !hset_again; reflexivity).
  - cbn [list_in] in Li. destruct (item_at r ((k, id) :: a)) as [s|] eqn:At; [|discriminate].
    destruct (hget key (ld_members (undef (snd s)))) as [[j [p vt|d'|d' u]]|] eqn:Hd; try discriminate Li. clear Li.
    split; [apply (root_ok mem n def f r H _ s _ _ At); intros; exact Logic.I|]. split; [apply (root_generated mem n def f r H _ s _ _ At); intros; exact Logic.I|].
    split; [exact (opens_run mem n def f r H _ s [] At)|].
    destruct (root_reach mem n def f r H _ _ _ _ At) as (i & d0 & u0 & l & Hk & Hf & R).
    destruct (reach_open key op n a d0 l id) as (l1 & E1 & E2).
    { eapply reach_mono; [|exact R]. intros m d1 it (Pl & I & T). destruct (def_get' m _ d1 key j d' u I Hd) as (d2 & Hd2 & I2). unfold item_open. rewrite Hd2. destruct (hget key (it_values it)) as [[p|x|[l1|]]|]; eexists _, _; reflexivity. }
    exists (hset k (DocModel.RMut (Some l1)) f). cbn [step_at list_step root_run]. unfold root_open. rewrite Hk, Hf, hget_hset_same. split; [rewrite E1; reflexivity|]. rewrite E2.
    destruct (list_run n (list_below id a key op) d0 l) as [[l3 b]| |]; [|reflexivity|reflexivity]. cbn [bind]. rewrite hset_again. reflexivity.
Qed.

(** the calls one after another *)
Lemma run_opened (ops : list root_step) o1 o2 f1 d b : Forall (fun o => root_run def f o = Ok (f, true) /\ ok_root_step mem def o /\ generated_root_step def o) ops ->
  root_run def f o1 = Ok (f1, true) -> root_run def f1 o2 = Ok (d, b) -> program_run def f (ops ++ [o1; o2]) = Ok d.
Proof.
  intros A E1 E2. unfold program_run. induction A as [|x ops (X & _) A IH]; cbn [app mfold]; [rewrite E1; cbn [bind]; rewrite E2; reflexivity|]. rewrite X. cbn [bind]. exact IH.
Qed.
End Open.

(* ------------------------------------------------------------------ *)
(** * The answers *)

Lemma room_fits {V} (l : list (Z * V) * Z) o : inserts o -> (room l = true <-> fits_insert o l).
Proof.
  intros I. unfold room, fits_insert. rewrite !andb_true_iff, negb_true_iff, !Z.ltb_lt. split.
  - intros ((A & B) & C) _. split; [intros X; apply has_in in X; congruence|]. split; assumption.
  - intros F. destruct (F I) as (A & B & C). split; [split; [exact B|]|exact C]. destruct (LinkedSpec.has (snd l) (fst l)) eqn:E; [apply has_in in E; contradiction|reflexivity].
Qed.
Lemma told_answer {V} (l : list (Z * V)) nx o : list_answer (l, nx) o = answered o (ids l).
Proof.
  unfold list_answer, answered. destruct o; try reflexivity.
  - cbn [astep fst snd]. rewrite known_in. reflexivity.
  - cbn [astep fst snd]. destruct l; reflexivity.
  - cbn [astep fst snd]. destruct l; reflexivity.
  - cbn [astep]. rewrite known_in. unfold LinkedSpec.has. destruct (lookup id l); reflexivity.
  - cbn [astep]. rewrite known_in. unfold LinkedSpec.has. destruct (lookup id l); reflexivity.
  - cbn [astep]. rewrite ?known_in. change (LinkedSpec.has id l) with (match lookup id l with Some _ => true | None => false end). destruct (lookup id l); [|reflexivity]. destruct (LinkedSpec.has next_items_id l), (id =? next_items_id); reflexivity.
  - cbn [astep]. rewrite ?known_in. change (LinkedSpec.has id l) with (match lookup id l with Some _ => true | None => false end). destruct (lookup id l); [|reflexivity]. destruct (LinkedSpec.has prev_items_id l), (id =? prev_items_id); reflexivity.
Qed.
Lemma next_now r a key d o : list_in r a key = Some (d, o) -> next_at r a key = snd (now o).
Proof.
  destruct a as [|x a]; cbn [list_in next_at].
  - destruct (hget key (ro_default r)) as [[j [p vt|d' rows o'|d' x|d' u]]|]; try discriminate. destruct (hget key (ro_sabun r)) as [[p|o']|]; try discriminate. intros E. injection E as _ <-. destruct o'; reflexivity.
  - destruct (item_at r (x :: a)) as [s|]; [|discriminate]. destruct (hget key (ld_members (undef (snd s)))) as [[j [p vt|d'|d' u]]|]; try discriminate.
    destruct (hget key (ci_values (fst s))) as [[p|l|o']|]; try discriminate; intros E; injection E as _ <-; [destruct o'; reflexivity|reflexivity].
Qed.

(* ------------------------------------------------------------------ *)
(** * Evaluating the calls *)

Section Calls.
Variable old : list name.
Variable iter : forall A, hmap A -> hmap A.
Variable r : root_obj.
Variable told : effect -> bool.
Local Notation root := (ro_default r).
Hypothesis T : tame root.
Variable parts : list (list CodeSpec.item).
Hypothesis D : Forall2 declares (generate old root) parts.
Local Notation p := (concat parts).

Local Notation EV := (EV p iter r told).
Local Notation Method := (Method p iter r told).
Local Notation list_value a key items l := (VGuard !"MListMut" (Some (mitem_type key)) (VPtr (PMList a key items (Def l)))).

Lemma lists_listed a key l e : lists old root a key l e -> mlisted root key l.
Proof.
  intros [t i l0 u I|a0 stem l0 e0 k i l' u H I].
  - eapply mlisted_mlist; exact I.
  - destruct (seizes_listed old r _ _ _ _ H) as (_ & C). eapply mlisted_mil; [exact C|exact I].
Qed.
Lemma lists_rule a key l e d o : lists old root a key l e -> list_in r a key = Some (d, o) ->
  d = Def l /\ forall G w, hget !"root" G = Some root_value -> EV [] G e w (Ok (list_value a key (fst (now o)) l, w ++ opens a ++ [EOpen a key])).
Proof.
  intros [t i l0 u I|a0 stem l0 e0 k i l' u H I] Li.
  - cbn [list_in] in Li. rewrite (root_get r T t _ I) in Li. destruct (hget t (ro_sabun r)) as [[q|o']|] eqn:Hv; try discriminate. injection Li as <- ->. split; [reflexivity|].
    intros G w HG. pose proof (call_open_root old iter r told T parts D t i l0 u w I) as X. rewrite Hv in X. unfold do. eapply conv_R; [eapply method_rule; [apply ev_var; [shut|exact HG]|exact X]|]. destruct o; reflexivity.
  - destruct (seizes_listed old r _ _ _ _ H) as (N & C). pose proof (seizes_spot old r T _ _ _ _ H) as S. destruct a0 as [|x a0]; [contradiction|]. cbn [list_in] in Li.
    destruct (item_at r (x :: a0)) as [s|] eqn:At; [|discriminate]. rewrite S in Li. cbn [undef] in Li. rewrite (member_get r T stem l0 k _ (mlisted_listed _ _ _ C) I) in Li.
    assert (E : d = Def l' /\ match hget k (ci_values (fst s)) with Some (VMil (Some x)) => fst x | _ => [] end = fst (now o)).
    { destruct (hget k (ci_values (fst s))) as [[q|z|o']|]; try discriminate; injection Li as <- <-; (split; [reflexivity|]); [destruct o'; reflexivity|reflexivity]. }
    destruct E as (-> & E). split; [reflexivity|]. intros G w HG.
    pose proof (seizes_rule old iter r told T parts D _ _ _ _ H G w HG) as X. rewrite At in X.
    pose proof (call_open old iter r told T parts D stem l0 k i l' u (x :: a0) s (mut_value (mitem_type stem) (x :: a0) s) (w ++ opens (x :: a0)) C I eq_refl S) as Y. rewrite E in Y.
    unfold do. eapply ev_call0; [exact X|]. cbn [and_then]. eapply conv_R; [exact Y|]. rewrite app_assoc. reflexivity.
Qed.

Lemma call_change a key l o op fn vs w d : mlisted root key l -> list_in r a key = Some (d, o) -> list_op_of fn vs = Some op -> fits_insert op (now o) ->
  Method (list_value a key (fst (now o)) l) fn vs w (Ok (reply op a key l (ids (fst (now o))) (snd (now o)), w ++ [EList a key op])).
Proof.
  intros C Li E F. pose proof (next_now _ _ _ _ _ Li) as Nx.
  assert (Q : conv (fun k => change_fn p r (eval p iter r told k) (mitem_type key) a key (fst (now o)) (Def l) op) w (Ok (reply op a key l (ids (fst (now o))) (snd (now o)), w ++ [EList a key op]))).
  { unfold change_fn. rewrite Nx. rewrite <- (surjective_pairing (now o)). destruct (now o) as [items nx]. cbn [fst snd] in *.
    destruct op; try (apply conv_now; intros k; unfold reply; rewrite told_answer; reflexivity).
    - rewrite (proj2 (room_fits (items, nx) LInsertFirst (or_introl eq_refl)) F). eapply conv_seq; [apply conv_now; intros k; reflexivity|]. cbn [and_then snd].
      apply (converted_rule parts iter r told _ _ !"MItemPtr"). eapply (mitem_from old root T parts D); exact C.
    - rewrite (proj2 (room_fits (items, nx) LInsertLast (or_intror eq_refl)) F). eapply conv_seq; [apply conv_now; intros k; reflexivity|]. cbn [and_then snd].
      apply (converted_rule parts iter r told _ _ !"MItemPtr"). eapply (mitem_from old root T parts D); exact C. }
  eapply conv_ext; [|exact Q]. intros k. cbv beta. cbn [method_of]. unfold guard_fn. change (eqb_bytes !"MListMut" !"MListMut") with true. cbv iota. rewrite E. reflexivity.
Qed.

Lemma calls_rule op fn args : calls op fn args -> forall G v w R, (forall vs, list_op_of fn vs = Some op -> Method v fn vs w R) -> forall e w0, EV [] G e w0 (Ok (v, w)) -> EV [] G (do e fn args) w0 R.
Proof.
  intros C G v w R M e w0 H. unfold do.
  destruct C; first [eapply ev_call0; [exact H|]; cbn [and_then]; apply M; reflexivity
    |eapply ev_call1; [exact H|apply ev_num|]; apply M; reflexivity
    |eapply ev_method; [exact H|]; cbn [and_then]; eexists; split;
       [eapply evs_ok; [apply ev_num|eapply evs_ok; [apply ev_num|apply evs_nil]]|]; cbn [and_then]; apply M; reflexivity].
Qed.

(** the whole *)
Lemma change_rule a key l e d o op fn args G w : lists old root a key l e -> list_in r a key = Some (d, o) -> calls op fn args -> fits_insert op (now o) -> hget !"root" G = Some root_value ->
  EV [] G (do e fn args) w (Ok (reply op a key l (ids (fst (now o))) (snd (now o)), w ++ opens a ++ [EOpen a key; EList a key op])).
Proof.
  intros L Li C F HG. destruct (lists_rule _ _ _ _ _ _ L Li) as (-> & X). eapply calls_rule; [exact C| |apply X, HG].
  intros vs E. eapply conv_R; [apply (call_change a key l o op fn vs _ _ (lists_listed _ _ _ _ L) Li E F)|]. rewrite <- !app_assoc. reflexivity.
Qed.
End Calls.

(* ------------------------------------------------------------------ *)
(** * What lists tell *)

Section Tells.
Variable old : list name.
Variable iter : forall A, hmap A -> hmap A.
Variable r : root_obj.
Variable told : effect -> bool.
Local Notation root := (ro_default r).
Hypothesis T : tame root.
Variable parts : list (list CodeSpec.item).
Hypothesis D : Forall2 declares (generate old root) parts.
Local Notation p := (concat parts).
Local Notation EV := (EV p iter r told).
Local Notation Method := (Method p iter r told).

Lemma last_rev {A B} (g : A -> B) (l : list A) m x : map g l = m ++ [x] -> exists y, hd_error (rev l) = Some y /\ g y = x.
Proof.
  intros E. destruct (rev l) as [|y l'] eqn:R.
  - apply (f_equal (@rev A)) in R. rewrite rev_involutive in R. subst l. destruct m; discriminate.
  - exists y. split; [reflexivity|]. apply (f_equal (@rev A)) in R. rewrite rev_involutive in R. subst l. cbn [rev] in E. rewrite map_app in E. cbn [map] in E. apply app_inj_tail in E as (_ & E). exact E.
Qed.
Lemma tells_rule a key l e d o fn args v G w : lists old root a key l e -> list_in r a key = Some (d, o) -> tells (ids (fst (now o))) (snd (now o)) fn args v -> hget !"root" G = Some root_value ->
  EV [] G (do e fn args) w (Ok (v, w ++ opens a ++ [EOpen a key])).
Proof.
  intros L Li C HG. pose proof (next_now _ _ _ _ _ Li) as Nx. destruct (lists_rule old iter r told T parts D _ _ _ _ _ _ L Li) as (-> & X). specialize (X G w HG). unfold do.
  assert (K : forall id (items : list (Z * citem)), is_some (lookup id items) = known id (ids items)) by (intros id items; rewrite known_in; unfold LinkedSpec.has; destruct (lookup id items); reflexivity).
  destruct (now o) as [items nx]. cbn [fst snd] in *. inversion C; subst; clear C; first [eapply ev_call0; [exact X|]; cbn [and_then]|eapply ev_call1; [exact X|apply ev_num|]]; apply conv_now; intros k; cbn [method_of]; unfold guard_fn;
    change (eqb_bytes !"MListMut" !"MListMut") with true; change (eqb_bytes !"MListMut" !"MListConst") with false; cbv iota.
  - unfold ids, zlen. rewrite map_length. reflexivity.
  - destruct items; reflexivity.
  - reflexivity.
  - destruct items; [reflexivity|discriminate].
  - destruct items as [|y items]; [discriminate|]. match goal with E : ids _ = _ |- _ => injection E as <- _ end. reflexivity.
  - destruct items; [reflexivity|discriminate].
  - match goal with E : ids _ = _ |- _ => destruct (last_rev fst _ _ _ E) as (y & Y & <-) end. transitivity (ret (of_opt (fun e : Z * citem => VNum (fst e)) (hd_error (rev items))) (w ++ opens a ++ [EOpen a key])); [reflexivity|]. rewrite Y. reflexivity.
  - rewrite <- K. reflexivity.
Qed.
End Tells.

(* ------------------------------------------------------------------ *)
(** * A new item *)

Lemma place_passes b w : place w = Some b -> passes b w.
Proof. destruct w; cbn [place passes]; try discriminate; intros E; [injection E as <-; reflexivity|right; exact E]. Qed.
Lemma item_in_list r a key d l id : list_in r a key = Some (d, Some l) -> item_at r (a ++ [(key, id)]) = mlist_item (fst l) d id.
Proof.
  destruct a as [|x a].
  - cbn [list_in app item_at]. unfold root_mlist. destruct (hget key (ro_default r)) as [[j [p vt|d' rows o'|d' x|d' u]]|]; try discriminate. destruct (hget key (ro_sabun r)) as [[p|o']|]; try discriminate.
    intros E. injection E as -> ->. cbn [option_map item_below]. destruct (mlist_item (fst l) d id); reflexivity.
  - cbn [list_in]. rewrite item_at_app by discriminate. destruct (item_at r (x :: a)) as [s|]; [|discriminate]. cbn [item_below]. unfold spot_mil.
    destruct (hget key (ld_members (undef (snd s)))) as [[j [p vt|d'|d' u]]|]; try discriminate. destruct (hget key (ci_values (fst s))) as [[p|z|o']|]; try discriminate; intros E.
    + injection E as -> ->. cbn [option_map]. destruct (mlist_item (fst l) d id); reflexivity.
    + injection E as -> <-. reflexivity.
Qed.
