(** C77: loops over lists meet every item once, in order, and what they write is read. *)
From Coq Require Import String.
From Verif Require Import Base StringCompactionModel StringCompactionProofs LinkedModel LinkedSpec LinkedProofs DocModel DiffModel DiffSpec DiffProofs DiffProofs2 DiffEditProofs ArchiveModel JsonModel IntfModel IntfSpec SizeSpec GenModel GenSpec GenProofs GenWellProofs.
From Verif Require Import CodeSpec ApiModel TypeSpec TypeProofs TypeGenProofs SavedModel ReadModel AgainModel RunModel RunSpec RunProofs RunGenProofs RunWayProofs RunAskProofs RunProps WroteSpec WroteProofs ListedSpec ListedProofs CalledSpec ToldSpec ToldProofs LoopModel LoopSpec LoopProofs.

Local Notation text := (list Z).
Local Notation "! s" := (txt s%string) (at level 0, s at level 0).
Local Notation "'var' s" := (EVar (txt s%string)) (at level 0, s at level 0).

Section Reads.
Variable old : list name.
Variable iter : forall A, hmap A -> hmap A.
Variable r : root_obj.
Variable told : effect -> bool.
Variable p : list CodeSpec.item.
Variable G : env.
Local Notation root := (ro_default r).
Local Notation evals := (evals p iter r told G).

(** A list that is only read: from the first item on, from the last one back, or from any item in
    either direction, the items that are met are those at the ends of the ways, each once and in
    order.  On the way the iterator says where it is. *)
Theorem C77_reads : forall q key l e was, accessible old r p -> has_root G -> reaches old root q key l e -> ask iter r q = Ok (Ids (Some was)) -> NoDup was ->
  exists v, (forall tr, evals e tr (Ok (some v, tr))) /\
    (forall id, ~ In id was -> iter_at v (FromId id) = None) /\
    forall b back met, walk was b back met -> exists it us, iter_at v b = Some it /\ visits p iter r told (shows p iter r told was) back it us /\
      Forall2 (fun id u => exists x, u = VPair (VNum id) x /\ forall c stem l' e' tr, goes old root (way_in q id) c stem l' e' -> evals e' tr (Ok (some x, tr))) met us.
Proof.
  intros q key l e was A HG Re E N. pose proof A as (T & parts & D & Ep). destruct (reaches_now old iter r T q key l e was Re E) as (Ids & Vi). set (items := items_now r (loc_in q) key) in *.
  exists (list_of (mitem_type key) (loc_in q) key items (Def l)). split; [|split].
  - intros tr. rewrite Ep. apply evals_EV. destruct (reaches_rule old iter r told T parts D q key l e G tr Re HG) as (_ & o & Ag & X). unfold agrees in Ag. rewrite E in Ag. destruct Ag as (items' & -> & Ids' & Vi').
    assert (items = items') as ->; [|exact X]. apply same_items; [rewrite Ids; exact N|congruence|]. intros id. specialize (Vi id). specialize (Vi' id). rewrite Vi in Vi'. apply Ok_inj in Vi'. unfold mlist_item in Vi'.
    destruct (lookup id items), (lookup id items'); cbn [option_map] in Vi'; try discriminate Vi'; [injection Vi' as ->|]; reflexivity.
  - intros id Ni. cbn [iter_at list_of]. unfold list_of. cbn [iter_at]. change (eqb_bytes !"MListConst" !"MListConst") with true. cbv iota. destruct (is_some (lookup id items)) eqn:L; [|reflexivity]. apply lookup_ids in L. rewrite Ids in L. contradiction.
  - assert (C : mlisted root key l) by exact (proj1 (reaches_rule old iter r told T parts D q key l e G [] Re HG)).
    set (value := fun id c => VGuard !"MItemConst" (Some (mitem_type key)) (item_value (mitem_type key) (loc_in q ++ [(key, id)]) (c, Def l))).
    assert (V : forall id c w, conv (fun k => converted p (eval p iter r told k) !"MItemConst" (mitem_type key) (PItem (loc_in q ++ [(key, id)]) (c, Def l))) w (Ok (value id c, w))).
    { intros id c w. rewrite Ep. apply (converted_rule parts iter r told _ _ !"MItemPtr"). eapply (mitem_from old root T parts D); exact C. }
    assert (Nd : NoDup (map fst items)) by (rewrite Ids; exact N).
    assert (Go : forall id c x stem l' e' tr, In (id, x) items -> goes old root (way_in q id) c stem l' e' -> evals e' tr (Ok (some (value id x), tr))).
    { intros id c x stem l' e' tr I Go. pose proof (C68_way old iter r told p G _ _ _ _ _ tr A HG Go) as W. rewrite Vi in W. unfold mlist_item in W. rewrite (lookup_in items id x Nd I) in W. cbn [option_map gives of_opt] in W.
      eapply evals_R; [exact W|]. unfold value. destruct Re as [t i l0 u I0|w0 s0 l0 e0 k i l1 u G0 I0]; cbn [way_in] in Go; inversion Go; subst; reflexivity. }
    assert (F : forall l2, incl l2 items -> Forall2 (fun id u => exists x, u = VPair (VNum id) x /\ forall c stem l' e' tr, goes old root (way_in q id) c stem l' e' -> evals e' tr (Ok (some x, tr)))
      (map fst l2) (map (fun e => VPair (VNum (fst e)) (value (fst e) (snd e))) l2)).
    { induction l2 as [|(id, x) l2 IH]; intros In2; cbn [map fst snd]; [constructor|]. constructor; [|apply IH; intros y Y; apply In2; right; exact Y].
      exists (value id x). split; [reflexivity|]. intros c stem l' e' tr. apply Go. apply In2. left. reflexivity. }
    assert (Rev : order r true !"MItemConst" (loc_in q) key = rev items) by reflexivity. assert (Fwd : order r false !"MItemConst" (loc_in q) key = items) by reflexivity.
    assert (St : forall b o, (match b with FromFirst => o = option_map fst (hd_error items) | FromLast => o = option_map fst (hd_error (rev items)) | FromId id => o = Some id /\ In id was end) ->
      iter_at (list_of (mitem_type key) (loc_in q) key items (Def l)) b = Some (MIter !"MItemConst" (mitem_type key) (loc_in q) key (Def l) o)).
    { intros b o B. unfold list_of. cbn [iter_at]. change (eqb_bytes !"MListConst" !"MListConst") with true. cbv iota. destruct b; [subst o; reflexivity..|]. destruct B as (-> & B). rewrite <- Ids in B. apply lookup_ids in B. rewrite B. reflexivity. }
    intros b back met W. pose proof (fun back => visit_rest p iter r told back _ _ _ _ _ value V Nd) as VR. fold items in VR. rewrite Ids in VR. assert (Sp : forall l1 id l2, was = l1 ++ id :: l2 -> exists m1 c m2, items = m1 ++ (id, c) :: m2 /\ map fst m1 = l1 /\ map fst m2 = l2).
    { intros l1 id l2 Ew. rewrite <- Ids in Ew. apply map_eq_app in Ew as (m1 & m & Em & E1 & Em2). destruct m as [|(x, c) m2]; cbn [map fst] in Em2; [discriminate Em2|]. injection Em2 as -> Em2. exists m1, c, m2. auto. }
    destruct W as [| |l1 id l2 Ew|l1 id l2 Ew].
    + eexists _, _. split; [apply St; reflexivity|]. split; [apply (VR false items []), Fwd|]. rewrite <- Ids. apply F, incl_refl.
    + eexists _, _. split; [apply St; reflexivity|]. split; [apply (VR true (rev items) []), Rev|]. rewrite <- Ids, <- map_rev. apply F. intros x X. apply in_rev, X.
    + destruct (Sp _ _ _ Ew) as (m1 & c & m2 & Em & <- & <-). eexists _, _. split; [apply (St (FromId id) (Some id)); split; [reflexivity|rewrite Ew; apply in_or_app; right; left; reflexivity]|].
      split; [apply (VR false ((id, c) :: m2) m1); rewrite Fwd; exact Em|]. apply (F ((id, c) :: m2)). rewrite Em. intros x X. apply in_or_app. right. exact X.
    + destruct (Sp _ _ _ Ew) as (m1 & c & m2 & Em & <- & <-). eexists _, _. split; [apply (St (FromId id) (Some id)); split; [reflexivity|rewrite Ew; apply in_or_app; right; left; reflexivity]|].
      split; [apply (VR true ((id, c) :: rev m1) (rev m2)); rewrite Rev, Em, rev_app_distr; cbn [rev]; rewrite <- app_assoc; reflexivity|].
      rewrite <- map_rev. apply (F ((id, c) :: rev m1)). rewrite Em. intros x [<-|X]; apply in_or_app; [right; left; reflexivity|left; apply in_rev, X].
Qed.

(** Lists that cannot change: what is met are the items at the positions, in order. *)
Theorem C77_constant : forall t i l items, accessible old r p -> has_root G -> In (t, (i, WCList (Def l) items)) root ->
  exists v it us, (forall tr, evals (do var"root" (with_old t (contains old t)) []) tr (Ok (v, tr))) /\ iter_at v FromFirst = Some it /\ visits p iter r told (fun _ _ => True) false it us /\
    length us = length items /\ forall k u stem l' e' tr, nth_error us k = Some u -> goes old root (Elem t k) true stem l' e' -> evals e' tr (Ok (some u, tr)).
Proof.
  intros t i l items A HG I. pose proof A as (T & parts & D & Ep).
  set (value := fun s => VGuard !"CItemConst" (Some (citem_type t)) (item_value (citem_type t) [] s)).
  assert (V : forall s w, conv (fun k => converted p (eval p iter r told k) !"CItemConst" (citem_type t) (PItem [] s)) w (Ok (value s, w))).
  { intros s w. rewrite Ep. apply (converted_rule parts iter r told _ _ !"CItemPtr"). eapply (citem_from old root T parts D). eapply clisted_clist; exact I. }
  exists (VGuard !"CListConst" (Some (citem_type t)) (VPtr (PCList (items, Def l)))), (CIter (citem_type t) (items, Def l) 0), (map (fun x => value (x, Def l)) items).
  split; [|split; [reflexivity|split; [exact (visit_const p iter r told _ (items, Def l) value V items [] eq_refl)|split; [apply map_length|]]]].
  - intros tr. rewrite Ep. apply evals_EV. unfold do. eapply ev_call0; [apply ev_var; [shut|exact HG]|]. cbn [and_then]. eapply (call_clist old iter r told T parts D); exact I.
  - intros k u stem l' e' tr Nu Go. rewrite nth_error_map in Nu. destruct (nth_error items k) as [c|] eqn:Nk; [|discriminate Nu]. cbn [option_map] in Nu. injection Nu as <-.
    pose proof (C68_way old iter r told p G _ _ _ _ _ tr A HG Go) as W. eapply evals_R; [exact W|]. cbn [visit]. unfold root_clist. rewrite (root_get r T t _ I). cbn [need Base.bind]. unfold clist_value. cbn [fst snd]. rewrite Nk. cbn [Base.bind gives of_opt].
    inversion Go; subst; reflexivity.
Qed.

(** The same for those of items. *)
Theorem C77_inner_constant : forall w stem l e key i l' s, accessible old r p -> has_root G -> goes old root w true stem l e -> In (key, (i, DCil (Def l'))) (ld_members l) -> visit iter r w = Ok (Some s) ->
  exists v it us, (forall tr, evals (if_some !"x" e (some_of (do var"x" (with_old key (contains (ld_old l) key)) []))) tr (Ok (some v, tr))) /\ iter_at v FromFirst = Some it /\ visits p iter r told (fun _ _ => True) false it us /\
    forall k, match nth_error us k with
      | Some u => forall stem' l1 e' tr, goes old root (Cil w key k) true stem' l1 e' -> evals e' tr (Ok (some u, tr))
      | None => visit iter r (Cil w key k) = Panic
      end.
Proof.
  intros w stem l e key i l' s A HG Go I Vs. pose proof A as (T & parts & D & Ep).
  pose proof (goes_spot old iter r T _ _ _ _ _ Go) as S0. pose proof (goes_listed old r _ _ _ _ _ Go) as C. rewrite Vs in S0.
  set (value := fun s => VGuard !"CItemConst" (Some (citem_type key)) (item_value (citem_type key) [] s)).
  assert (V : forall s w, conv (fun k => converted p (eval p iter r told k) !"CItemConst" (citem_type key) (PItem [] s)) w (Ok (value s, w))).
  { intros s0 w0. rewrite Ep. apply (converted_rule parts iter r told _ _ !"CItemPtr"). eapply (citem_from old root T parts D). eapply clisted_cil; [exact C|exact I]. }
  assert (X : exists items, spot_cil s key = Some (items, Def l') /\ forall tr, evals (if_some !"x" e (some_of (do var"x" (with_old key (contains (ld_old l) key)) []))) tr (Ok (some (VGuard !"CListConst" (Some (citem_type key)) (VPtr (PCList (items, Def l')))), tr))).
  { pose proof (fun tr => call_cil old iter r told T parts D stem l key i l' (loc_at w) s (handed w (item_type true stem) (item_value (item_type true stem) (loc_at w) s)) tr C I (handed_bare _ _ _) S0) as Y.
    destruct (Y []) as (items & X & _). exists items. split; [exact X|]. intros tr. destruct (Y tr) as (items' & X' & M). rewrite X in X'. injection X' as <-.
    rewrite Ep. apply evals_EV. pose proof (way_rule old iter r told T parts D w true stem l e Go G tr HG) as W. rewrite Vs in W. eapply if_some_rule; [exact W|]. cbv beta iota. eapply ev_some; [unfold do; eapply ev_call0; [apply ev_var; [shut|look]|]; cbn [and_then]; exact M|]. reflexivity. }
  destruct X as (items & X & Y). exists (VGuard !"CListConst" (Some (citem_type key)) (VPtr (PCList (items, Def l')))), (CIter (citem_type key) (items, Def l') 0), (map (fun x => value (x, Def l')) items).
  split; [exact Y|split; [reflexivity|split; [exact (visit_const p iter r told _ (items, Def l') value V items [] eq_refl)|]]].
  intros k. rewrite nth_error_map. cbn [visit]. rewrite Vs. cbn [Base.bind]. rewrite X. cbn [need Base.bind]. unfold clist_value. cbn [fst snd]. destruct (nth_error items k) as [c|] eqn:Nk; cbn [option_map]; [|reflexivity].
  intros stem' l1 e' tr Go'. pose proof (C68_way old iter r told p G _ _ _ _ _ tr A HG Go') as W. eapply evals_R; [exact W|]. cbn [visit]. rewrite Vs. cbn [Base.bind]. rewrite X. cbn [need Base.bind]. unfold clist_value. cbn [fst snd]. rewrite Nk. cbn [Base.bind gives of_opt].
  inversion Go'; subst; reflexivity.
Qed.
End Reads.
Print Assumptions C77_reads.
Print Assumptions C77_constant.
Print Assumptions C77_inner_constant.

(* ------------------------------------------------------------------ *)
(** * Loops that write *)

From Verif Require Import JsonSpec ValidModel ValidSpec EmbedSpec EmbedProofs IntfProofs SizeProofs AgainSpec AgainProofs WroteStepProofs ListedAskProofs ListedStepProofs CalledProofs LoopSetProofs.
From Verif Require WroteProps CalledProps EmbedProps.

Section Writes.
Variable old : list name.
Variable iter : forall A, hmap A -> hmap A.
Variable r : root_obj.
Variable told : effect -> bool.
Variable p : list CodeSpec.item.
Variable G : env.
Variable mem : Z -> list Z.
Context {n : nat}.
Variable def : rootdef n.
Variable f : sabun n.
Local Notation root := (ro_default r).

Lemma run_none (ops : list root_step) : Forall (fun o => root_run def f o = Ok (f, true) /\ ok_root_step mem def o /\ generated_root_step def o) ops -> program_run def f ops = Ok f.
Proof. intros A. unfold program_run. induction A as [|x ops (X & _) A IH]; cbn [mfold]; [reflexivity|]. rewrite X. cbn [bind]. exact IH. Qed.
Lemma opens_last a key id : opens (a ++ [(key, id)]) = opens a ++ [EOpen a key].
Proof.
  assert (X : forall a b, opens_from b (a ++ [(key, id)]) = opens_from b a ++ [EOpen (b ++ a) key]); [|exact (X a [])].
  clear a. induction a as [|(k, i) a IH]; intros b; cbn [app opens_from]; [rewrite app_nil_r; reflexivity|]. f_equal. rewrite IH, <- app_assoc. reflexivity.
Qed.

(** [for (id, x) in list.iter() { x.set_k(value); }]: after the loop every item has its value, and
    nothing else has changed.  The value may depend on the id and on everything the document says
    then, where only what the loop wrote in other items differs from the beginning. *)
Theorem C77_writes : forall a key l e d items next k i p0 vt q ea, accessible old r p -> has_root G -> holds mem def f r -> few_rootdef def ->
  lists old root a key l e -> list_in r a key = Some (d, Some (items, next)) -> items <> [] -> In (k, (i, DParam p0 vt)) (ld_members l) ->
  (forall id, In id (ids items) -> type_of (q id) = type_of p0 /\ allows_param vt (q id) /\ wf_param mem (q id)) ->
  loop_gives mem p iter r told G def a key k l (ids items) ea (fun id => as_marked VOf vt (contents (q id))) ->
  exists v it f', makes mem p iter r told G e v def f f /\ iter_at v FromFirst = Some it /\
    for_each mem p iter r told G (do var"x" (!"set_" ++ with_old k (contains (ld_old l) k)) [ea]) def f it f' /\
    let t := with_members r f' in holds mem def f' t /\ accessible old t p /\
    (forall id w stem e' tr, In id (ids items) -> goes old root w false stem l e' -> place w = Some (a ++ [(key, id)]) ->
      evals p iter t told G (asks e' (with_old k (contains (ld_old l) k))) tr (Ok (some (as_marked VOf vt (contents (q id))), tr))) /\
    unchanged iter r t (elsewhere a key k (ids items)).
Proof.
  intros a key l e d items next k i p0 vt q ea A HG H Few Ls Li Ne I Q Ea. pose proof A as (T & parts & D & Ep).
  assert (C : mlisted root key l) by exact (lists_listed old r a key l e Ls).
  assert (Rr : with_members r f = r) by (destruct H as (_ & Rs & _); unfold with_members; rewrite <- Rs; destruct r; reflexivity).
  destruct (lists_rule old iter r told T parts D a key l e d _ Ls Li) as (-> & Ev). cbn [now fst] in Ev.
  destruct (list_call mem def f r H a key (Def l) _ LRemoveFirst Li) as (N & _); [intros [E|E]; discriminate|]. cbn [now fst] in N.
  destruct (loop_set old iter r told p G mem def a key k l i p0 vt q ea (ids items) next A Few C I Q Ea N (ids items) [] f items) as (f' & its' & Fe & H' & Li' & Ids' & U & Rd).
  { rewrite Rr. exact H. }
  { rewrite Rr. exact Li. }
  { reflexivity. }
  { reflexivity. }
  { rewrite Rr. intros x _. reflexivity. }
  { intros id w []. }
  exists (VGuard !"MListMut" (Some (mitem_type key)) (VPtr (PMList a key items (Def l)))), (MIter !"MItemMut" (mitem_type key) a key (Def l) (hd_error (ids items))), f'.
  split; [|split; [|split; [exact Fe|]]].
  - destruct items as [|(id, c) items]; [contradiction|]. pose proof (item_in_list r a key (Def l) _ id Li) as At. cbn [fst] in At. unfold mlist_item in At. cbn [lookup] in At. rewrite Z.eqb_refl in At. cbn [option_map] in At.
    pose proof (opens_run mem n def f r H (a ++ [(key, id)]) _ [] At) as O.
    intros tr. exists (opens (a ++ [(key, id)])), (open_steps [] (a ++ [(key, id)])). split; [rewrite Ep, opens_last; apply evals_EV, (Ev G tr HG)|]. split; [apply opens_perform|].
    split; [eapply Forall_impl; [|exact O]; cbn beta; tauto|]. split; [eapply Forall_impl; [|exact O]; cbn beta; tauto|]. exact (run_none _ O).
  - cbn [iter_at]. change (eqb_bytes !"MListMut" !"MListConst") with false. change (eqb_bytes !"MListMut" !"MListMut") with true. cbv iota. rewrite end_ids. reflexivity.
  - intros t. split; [exact H'|]. split; [exact A|]. split; [|exact U]. intros id w stem e' tr Id Go Pw. assert (At : accessible old t p) by exact A.
    eapply evals_R; [eapply (C68_read old iter t told p G w false stem l e' k i p0 vt tr At HG Go I)|]. specialize (Rd id w Id Pw). fold t in Rd. cbn [ask] in Rd. unfold at_item in Rd. unfold read_at.
    destruct (ReadModel.visit iter t w) as [[s|]| |]; cbn [bind] in *; try discriminate Rd. destruct (get_param s k) as [v| |]; cbn [bind] in *; try discriminate Rd. injection Rd as ->. reflexivity.
Qed.
End Writes.
Print Assumptions C77_writes.

(* ------------------------------------------------------------------ *)
(** * A case *)

Import WroteProps(wrote_doc, wrote_def, wrote_start, wrote_holds, wrote_accessible, wrote_list, wrote_l).
Import EmbedProps(text_at).
Import JsonProps(in_place).

Lemma loop_reaches : reaches (ro_old wrote_doc) (ro_default wrote_doc) (RootItems !"list") !"list" wrote_list (some_of (do var"root" !"list" [])).
Proof. eapply (reaches_root (ro_old wrote_doc) (ro_default wrote_doc) !"list" _ wrote_list false); RunProps.found. Qed.
Lemma loop_goes id : goes (ro_old wrote_doc) (ro_default wrote_doc) (Entry !"list" id) false !"list" wrote_list (item_in false (do var"root" !"list" []) id).
Proof. eapply (goes_entry (ro_old wrote_doc) (ro_default wrote_doc) !"list" _ wrote_list false id); RunProps.found. Qed.
(** [root.list().iter_from_last()], going back with [prev]: the items 7 and 0 *)
Example C77_reads_case : exists p, accessible (ro_old wrote_doc) wrote_doc p /\ forall told, let E := evals p in_place wrote_doc told [(!"root", root_value)] in
  exists v it x y, (forall tr, E (some_of (do var"root" !"list" [])) tr (Ok (some v, tr))) /\ iter_at v FromLast = Some it /\
    visits p in_place wrote_doc told (shows p in_place wrote_doc told [0; 7]) true it [VPair (VNum 7) x; VPair (VNum 0) y] /\
    (forall tr, E (item_in false (do var"root" !"list" []) 7) tr (Ok (some x, tr))) /\ forall tr, E (item_in false (do var"root" !"list" []) 0) tr (Ok (some y, tr)).
Proof.
  destruct wrote_accessible as (p & A). exists p. split; [exact A|]. intros told E. assert (HG : has_root [(!"root", root_value)]) by reflexivity.
  assert (N : NoDup [0; 7]) by (repeat constructor; cbn; intuition discriminate).
  destruct (C77_reads (ro_old wrote_doc) in_place wrote_doc told p _ _ _ _ _ [0; 7] A HG loop_reaches (eq_refl (Ok (Ids (Some [0; 7])))) N) as (v & Ev & _ & W).
  destruct (W FromLast true _ (walk_back [0; 7])) as (it & us & Ii & Vi & F). cbn [rev app] in F. inversion F as [|z u zs us0 (x & -> & X) F1]; subst. inversion F1 as [|z u zs us1 (y & -> & Y) F2]; subst. inversion F2; subst.
  exists v, it, x, y. split; [exact Ev|]. split; [exact Ii|]. split; [exact Vi|]. split; intros tr; [exact (X _ _ _ _ tr (loop_goes 7))|exact (Y _ _ _ _ tr (loop_goes 0))].
Qed.

Lemma loop_lists : lists (ro_old wrote_doc) (ro_default wrote_doc) [] !"list" wrote_list (do var"root" !"list_mut" []).
Proof. exact (proj2 CalledProps.wrote_lists). Qed.
Lemma loop_list : exists items, list_in wrote_doc [] !"list" = Some (Def wrote_list, Some (items, 8)) /\ ids items = [0; 7].
Proof. eexists. split; vm_compute; reflexivity. Qed.
Lemma loop_member : exists i, In (!"x", (i, DParam (PInt (Val 1)) Normal)) (ld_members wrote_list).
Proof. eexists. RunProps.found. Qed.
(** [for (id, x) in root.list_mut().iter() { x.set_x(v); }] *)
Example C77_writes_case : exists p, accessible (ro_old wrote_doc) wrote_doc p /\ forall told, let G := [(!"root", root_value); (!"v", VOf (CInt 9))] in
  exists v it d, makes text_at p in_place wrote_doc told G (do var"root" !"list_mut" []) v wrote_def wrote_start wrote_start /\ iter_at v FromFirst = Some it /\
    for_each text_at p in_place wrote_doc told G (do var"x" !"set_x" [var"v"]) wrote_def wrote_start it d /\ let t := with_members wrote_doc d in
    ask in_place wrote_doc (Param (Entry !"list" 0) !"x") = Ok (Value (Val (CInt 3))) /\ ask in_place wrote_doc (Param (Entry !"list" 7) !"x") = Ok (Value (Val (CInt 1))) /\
    (forall id tr, In id [0; 7] -> evals p in_place t told G (asks (item_in false (do var"root" !"list" []) id) !"x") tr (Ok (some (VOf (CInt 9)), tr))) /\
    ask in_place t (Param (Mil (Entry !"list" 7) !"l" 0) !"y") = Ok (Value (Val (CInt 4))).
Proof.
  destruct wrote_accessible as (p & A). exists p. split; [exact A|]. intros told G. destruct wrote_holds as (Few & H). assert (HG : has_root G) by reflexivity.
  destruct loop_list as (items & Li & Io). destruct loop_member as (i & I).
  destruct (C77_writes (ro_old wrote_doc) in_place wrote_doc told p G text_at wrote_def wrote_start [] !"list" wrote_list _ _ items 8 !"x" i (PInt (Val 1)) Normal (fun _ => PInt (Val 9)) var"v" A HG H Few loop_lists Li) as (v & it & d & M & Ii & Fe & _ & _ & R & U).
  - intros ->. discriminate Io.
  - exact I.
  - intros id _. split; [reflexivity|]. split; [exact Logic.I|]. cbn. unfold i64_range. lia.
  - intros f0 these id c _ _ _ _ _ _ tr. apply evals_EV, ev_var; [shut|look].
  - rewrite Io in *. exists v, it, d. split; [exact M|]. split; [exact Ii|]. split; [exact Fe|]. intros t. split; [vm_compute; reflexivity|]. split; [vm_compute; reflexivity|]. split.
    + intros id tr Id. exact (R id (Entry !"list" id) !"list" _ tr Id (loop_goes id) eq_refl).
    + unfold t. rewrite (U (Param (Mil (Entry !"list" 7) !"l" 0) !"y")); [vm_compute; reflexivity|]. intros w id _ Hw. injection Hw as _ K. discriminate K.
Qed.

(** [prev] of a mutable iterator is to go back as [prev] of the others does (C77_reads).  After
    one [next] it stands on the item 7; then [prev] gives that item, but after it nothing, where
    the item 0 was to come. *)
Theorem C77_mut_prev_refuted : exists p, accessible (ro_old wrote_doc) wrote_doc p /\ forall told, exists v it it1 it2 x y,
  (forall tr, evals p in_place wrote_doc told [(!"root", root_value)] (do var"root" !"list_mut" []) tr (Ok (v, tr ++ [EOpen [] !"list"]))) /\ iter_at v FromFirst = Some it /\
  hands p in_place wrote_doc told false it (some (VPair (VNum 0) x)) it1 /\ hands p in_place wrote_doc told true it1 (some (VPair (VNum 7) y)) it2 /\ hands p in_place wrote_doc told true it2 none it2.
Proof.
  destruct wrote_accessible as (p & A). exists p. split; [exact A|]. intros told. pose proof A as (T & parts & D & Ep). destruct loop_list as (items & Li & Io).
  destruct (lists_rule (ro_old wrote_doc) in_place wrote_doc told T parts D [] !"list" wrote_list _ _ _ loop_lists Li) as (_ & Ev). cbn [now fst] in Ev.
  pose proof (lists_listed _ _ _ _ _ _ loop_lists) as C. pose proof (list_items _ _ _ _ _ Li) as Now. cbn [fst] in Now.
  set (value := fun id c => VGuard !"MItemMut" (Some (mitem_type !"list")) (item_value (mitem_type !"list") ([] ++ [(!"list", id)]) (c, Def wrote_list))).
  assert (V : forall id c w, conv (fun k => converted p (eval p in_place wrote_doc told k) !"MItemMut" (mitem_type !"list") (PItem ([] ++ [(!"list", id)]) (c, Def wrote_list))) w (Ok (value id c, w))).
  { intros id c w. rewrite Ep. apply (converted_rule parts in_place wrote_doc told _ _ !"MItemPtr"). eapply (mitem_from (ro_old wrote_doc) (ro_default wrote_doc) T parts D); exact C. }
  destruct items as [|(z, c) [|(z', c') [|]]]; try discriminate Io. injection Io as -> ->.
  pose proof (hand_item p in_place wrote_doc told false !"MItemMut" (mitem_type !"list") [] !"list" (Def wrote_list) value V 0 c) as H0. unfold order in H0. cbn [andb] in H0. rewrite Now in H0. specialize (H0 eq_refl).
  pose proof (hand_item p in_place wrote_doc told true !"MItemMut" (mitem_type !"list") [] !"list" (Def wrote_list) value V 7 c') as H7. unfold order in H7.
  change (true && eqb_bytes !"MItemMut" !"MItemConst") with false in H7. cbv iota in H7. rewrite Now in H7. specialize (H7 eq_refl).
  eexists _, _, _, _, _, _. split; [intros tr; rewrite Ep; apply evals_EV, (Ev [(!"root", root_value)] tr eq_refl)|]. split; [reflexivity|]. split; [exact H0|]. split; [exact H7|]. apply hand_end.
Qed.
Print Assumptions C77_mut_prev_refuted.

(** [root.c().iter()], for a list that cannot change *)
From Verif Require ToldProps.
Example C77_constant_case : exists p, accessible (ro_old run_doc) run_doc p /\ forall told, let E := evals p in_place run_doc told [(!"root", root_value)] in
  exists v it x y, (forall tr, E (do var"root" !"c" []) tr (Ok (v, tr))) /\ iter_at v FromFirst = Some it /\ visits p in_place run_doc told (fun _ _ => True) false it [x; y] /\
    (forall tr, E (ToldProps.told_elem 0) tr (Ok (some x, tr))) /\ forall tr, E (ToldProps.told_elem 1) tr (Ok (some y, tr)).
Proof.
  destruct run_accessible as (p & A). exists p. split; [exact A|]. intros told E. assert (HG : has_root [(!"root", root_value)]) by reflexivity. destruct ToldProps.told_list as (i & items & I & Len).
  destruct (C77_constant (ro_old run_doc) in_place run_doc told p _ _ _ _ _ A HG I) as (v & it & us & Ev & Ii & Vi & L & F).
  assert (Lu : length us = 2%nat) by (unfold zlen in Len; lia). destruct us as [|x [|y [|]]]; try discriminate Lu.
  exists v, it, x, y. split; [exact Ev|]. split; [exact Ii|]. split; [exact Vi|]. split; intros tr; [exact (F 0%nat x _ _ _ tr eq_refl (ToldProps.told_goes 0))|exact (F 1%nat y _ _ _ tr eq_refl (ToldProps.told_goes 1))].
Qed.
