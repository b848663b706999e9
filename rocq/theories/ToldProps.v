(** C75: what accessors tell about lists is about the items the lists have, in their order. *)
From Coq Require Import String.
From Verif Require Import Base StringCompactionModel StringCompactionProofs LinkedModel LinkedSpec LinkedProofs DocModel DiffSpec DiffProofs ArchiveModel JsonModel IntfModel GenModel GenSpec GenProofs GenWellProofs.
From Verif Require Import CodeSpec ApiModel TypeSpec TypeProofs TypeGenProofs ReadModel AgainModel RunModel RunSpec RunProofs RunGenProofs RunWayProofs RunProps ListedSpec ListedProofs ToldSpec ToldProofs.
From Verif Require WroteProps.

Local Notation text := (list Z).
Local Notation "! s" := (txt s%string) (at level 0, s at level 0).
Local Notation "'var' s" := (EVar (txt s%string)) (at level 0, s at level 0).

Section Props.
Variable old : list name.
Variable iter : forall A, hmap A -> hmap A.
Variable r : root_obj.
Variable told : effect -> bool.
Variable p : list CodeSpec.item.
Variable G : env.
Local Notation root := (ro_default r).
Local Notation evals := (evals p iter r told G).

(** How many items there are, the first, the last, and whether there is one with an id. *)
Theorem C75_tells : forall q key l e fn args f tr, accessible old r p -> has_root G -> reaches old root q key l e -> informs fn args f ->
  evals (of_list e fn args) tr (informed f tr (ask iter r q)).
Proof.
  intros q key l e fn args f tr (T & parts & D & ->) HG Re In. apply evals_EV. destruct (reaches_rule old iter r told T parts D q key l e G tr Re HG) as (_ & o & A & X).
  unfold of_list. eapply if_some_rule; [exact X|]. unfold agrees in A. destruct (ask iter r q) as [[| | | | |[was|]]| |]; try (subst o; reflexivity). destruct A as (items & -> & <- & _).
  cbn [informed]. eapply ev_some; [eapply call_informs; [exact In|apply ev_var; [shut|look]]|]. reflexivity.
Qed.

(** Items are given by their ids and as the first or last; each is the one at the end of the way. *)
Theorem C75_picks : forall q key l e tr, accessible old r p -> has_root G -> reaches old root q key l e ->
  (forall was fn args o, ask iter r q = Ok (Ids (Some was)) -> NoDup was -> picks was fn args o ->
    match o with
    | None => evals (in_list e fn args) tr (Ok (none, tr))
    | Some id => exists v, evals (in_list e fn args) tr (Ok (some v, tr)) /\ forall c stem l' e', goes old root (way_in q id) c stem l' e' -> evals e' tr (Ok (some v, tr))
    end) /\
  (forall fn args, (forall was, ask iter r q <> Ok (Ids (Some was))) -> evals (in_list e fn args) tr (informed (fun _ => VUnit) tr (ask iter r q))).
Proof.
  intros q key l e tr A0 HG Re. pose proof A0 as (T & parts & D & Ep). destruct (reaches_rule old iter r told T parts D q key l e G tr Re HG) as (C & o & A & X). unfold agrees in A. split.
  - intros was fn args oid E N P. rewrite E in A. destruct A as (items & -> & <- & V).
    set (give := fun id (c : citem) => VGuard !"MItemConst" (Some (mitem_type key)) (item_value (mitem_type key) (loc_in q ++ [(key, id)]) (c, Def l))).
    assert (Y : exists oc, evals (in_list e fn args) tr (Ok (of_opt (fun x : Z * citem => give (fst x) (snd x)) oc, tr)) /\ oid = option_map fst oc /\ forall x c, oc = Some (x, c) -> lookup x items = Some c).
    { rewrite Ep. destruct P as [| |id].
      - exists (hd_error items). split; [|split; [destruct items; reflexivity|intros x c; apply lookup_hd]]. apply evals_EV. unfold in_list. eapply if_some_rule; [exact X|]. cbv beta.
        unfold do. eapply ev_call0; [apply ev_var; [shut|look]|]. cbn [and_then]. apply (call_end old iter r told T parts D !"first"); [exact C|left; split; reflexivity].
      - exists (hd_error (rev items)). split; [|split; [rewrite <- map_rev; destruct (rev items); reflexivity|intros x c; apply lookup_end, N]]. apply evals_EV. unfold in_list. eapply if_some_rule; [exact X|]. cbv beta.
        unfold do. eapply ev_call0; [apply ev_var; [shut|look]|]. cbn [and_then]. apply (call_end old iter r told T parts D !"last"); [exact C|right; split; reflexivity].
      - exists (option_map (fun c => (id, c)) (lookup id items)). split; [|split].
        + apply evals_EV. unfold in_list. eapply if_some_rule; [exact X|]. cbv beta. unfold do. eapply ev_call1; [apply ev_var; [shut|look]|apply ev_num|].
          eapply conv_R; [apply (call_get_item old iter r told T parts D), C|]. unfold mlist_item, give. destruct (lookup id items); reflexivity.
        + change (map fst items) with (ids items). rewrite known_in. unfold LinkedSpec.has. destruct (lookup id items); reflexivity.
        + intros x c. destruct (lookup id items) eqn:L; [|discriminate]. intros H. injection H as <- <-. exact L. }
    destruct Y as ([(x, c)|] & Y & -> & L); cbn [option_map fst of_opt] in *; [|exact Y]. exists (give x c). split; [exact Y|].
    intros c' stem l' e' Go. pose proof (C68_way old iter r told p G _ _ _ _ _ tr A0 HG Go) as W. rewrite V in W. unfold mlist_item in W. rewrite (L x c eq_refl) in W. cbn [option_map gives of_opt] in W.
    eapply evals_R; [exact W|]. unfold give. destruct Re as [t i l0 u I|w0 s0 l0 e0 k i l1 u G0 I]; cbn [way_in] in Go; inversion Go; subst; reflexivity.
  - intros fn args N. rewrite Ep. apply evals_EV. unfold in_list. eapply if_some_rule; [exact X|]. destruct (ask iter r q) as [[| | | | |[was|]]| |]; try (subst o; reflexivity). destruct (N was eq_refl).
Qed.

(** Lists that cannot change: [len] says for which positions [value] gives an item; it panics for
    the others. *)
Theorem C75_constant : forall t i l items tr, accessible old r p -> has_root G -> In (t, (i, WCList (Def l) items)) root ->
  let e := do var"root" (with_old t (contains old t)) [] in
  evals (do e !"len" []) tr (Ok (VNum (zlen items), tr)) /\
  forall k, if Z.of_nat k <? zlen items then exists v, evals (do e !"value" [ENum (Z.of_nat k)]) tr (Ok (v, tr)) else evals (do e !"value" [ENum (Z.of_nat k)]) tr Panic.
Proof.
  intros t i l items tr (T & parts & D & ->) HG I e.
  assert (X : EV (concat parts) iter r told [] G e tr (Ok (VGuard !"CListConst" (Some (citem_type t)) (VPtr (PCList (items, Def l))), tr))).
  { unfold e, do. eapply ev_call0; [apply ev_var; [shut|exact HG]|]. cbn [and_then]. eapply (call_clist old iter r told T parts D); exact I. }
  split.
  - apply evals_EV. unfold do. eapply ev_call0; [exact X|]. cbn [and_then]. apply conv_now. intros k. reflexivity.
  - intros k. assert (V : forall R, match clist_value (items, Def l) k with Ok s => Ok (VGuard !"CItemConst" (Some (citem_type t)) (item_value (citem_type t) [] s), tr) | Err => Err | Panic => Panic end = R -> RunSpec.evals (concat parts) iter r told G (do e !"value" [ENum (Z.of_nat k)]) tr R).
    { intros R <-. apply evals_EV. unfold do. eapply ev_call1; [exact X|apply ev_num|]. apply (call_value old iter r told T parts D). eapply clisted_clist; exact I. }
    unfold clist_value in V. cbn [fst snd] in V. unfold zlen. destruct (nth_error items k) as [c|] eqn:E.
    + assert (L : (k < length items)%nat) by (apply nth_error_Some; congruence). destruct (Z.ltb_spec (Z.of_nat k) (Z.of_nat (length items))); [|lia]. eexists. apply V. reflexivity.
    + apply nth_error_None in E. destruct (Z.ltb_spec (Z.of_nat k) (Z.of_nat (length items))); [lia|]. apply V. reflexivity.
Qed.

(** The same for those of items: [len] says for which positions there is something to go to. *)
Theorem C75_inner_constant : forall w stem l e key i l' tr, accessible old r p -> has_root G -> goes old root w true stem l e -> In (key, (i, DCil (Def l'))) (ld_members l) ->
  let size := if_some !"x" e (some_of (do (do var"x" (with_old key (contains (ld_old l) key)) []) !"len" [])) in
  match visit iter r w with
  | Ok (Some _) => exists n, evals size tr (Ok (some (VNum n), tr)) /\ forall k, if Z.of_nat k <? n then exists s, visit iter r (Cil w key k) = Ok (Some s) else visit iter r (Cil w key k) = Panic
  | Ok None => evals size tr (Ok (none, tr))
  | Err => evals size tr Err
  | Panic => evals size tr Panic
  end.
Proof.
  intros w stem l e key i l' tr (T & parts & D & ->) HG Go I size. pose proof (way_rule old iter r told T parts D w true stem l e Go G tr HG) as W.
  pose proof (goes_spot old iter r T _ _ _ _ _ Go) as S0. pose proof (goes_listed old r _ _ _ _ _ Go) as C.
  destruct (visit iter r w) as [[s|]| |] eqn:V.
  - destruct (call_cil old iter r told T parts D stem l key i l' (loc_at w) s (handed w (item_type true stem) (item_value (item_type true stem) (loc_at w) s)) tr C I (handed_bare _ _ _) S0) as (items & X & Y).
    exists (zlen items). split.
    + apply evals_EV. unfold size. eapply if_some_rule; [exact W|]. cbv beta iota. eapply ev_some.
      * unfold do. eapply (ev_call0 _ _ _ _ _ _ _ _ _ _ (Ok (VNum (zlen items), tr))); [eapply ev_call0; [apply ev_var; [shut|look]|]; cbn [and_then]; exact Y|]. cbn [and_then]. apply conv_now. intros k. reflexivity.
      * reflexivity.
    + intros k. cbn [visit]. rewrite V. cbn [Base.bind]. rewrite X. cbn [need Base.bind]. unfold clist_value, zlen. cbn [fst snd]. destruct (nth_error items k) as [c|] eqn:E.
      * assert (L : (k < length items)%nat) by (apply nth_error_Some; congruence). destruct (Z.ltb_spec (Z.of_nat k) (Z.of_nat (length items))); [|lia]. eexists. reflexivity.
      * apply nth_error_None in E. destruct (Z.ltb_spec (Z.of_nat k) (Z.of_nat (length items))); [lia|]. reflexivity.
  - apply evals_EV. unfold size. eapply if_some_rule; [exact W|]. reflexivity.
  - apply evals_EV. unfold size. eapply if_some_rule; [exact W|]. reflexivity.
  - apply evals_EV. unfold size. eapply if_some_rule; [exact W|]. reflexivity.
Qed.
End Props.
Print Assumptions C75_tells.
Print Assumptions C75_picks.
Print Assumptions C75_constant.
Print Assumptions C75_inner_constant.

(* ------------------------------------------------------------------ *)
(** * A case *)

(** [root.list().get_item(7)], its list [l], and what is in it *)
Definition told_item : expr := do (do var"root" !"list" []) !"get_item" [ENum 7].
Definition told_l : expr := if_some !"x" told_item (some_of (do var"x" !"l" [])).
Example C75_case : exists p, accessible (ro_old WroteProps.wrote_doc) WroteProps.wrote_doc p /\
  reaches (ro_old WroteProps.wrote_doc) (ro_default WroteProps.wrote_doc) (RootItems !"list") !"list" WroteProps.wrote_list (some_of (do var"root" !"list" [])) /\
  reaches (ro_old WroteProps.wrote_doc) (ro_default WroteProps.wrote_doc) (Items (Entry !"list" 7) !"l") !"l" WroteProps.wrote_l told_l /\
  forall told tr, let E := evals p JsonProps.in_place WroteProps.wrote_doc told [(!"root", root_value)] in
  ask JsonProps.in_place WroteProps.wrote_doc (RootItems !"list") = Ok (Ids (Some [0; 7])) /\
  E (of_list (some_of (do var"root" !"list" [])) !"len" []) tr (Ok (some (VNum 2), tr)) /\
  E (of_list (some_of (do var"root" !"list" [])) !"last_id" []) tr (Ok (some (some (VNum 7)), tr)) /\
  E (of_list told_l !"first_id" []) tr (Ok (some (some (VNum 0)), tr)) /\
  E (of_list told_l !"contains_key" [ENum 1]) tr (Ok (some (VBool false), tr)).
Proof.
  destruct WroteProps.wrote_accessible as (p & A). exists p. split; [exact A|].
  assert (R1 : reaches (ro_old WroteProps.wrote_doc) (ro_default WroteProps.wrote_doc) (RootItems !"list") !"list" WroteProps.wrote_list (some_of (do var"root" !"list" []))).
  { eapply (reaches_root (ro_old WroteProps.wrote_doc) (ro_default WroteProps.wrote_doc) !"list" _ WroteProps.wrote_list false); RunProps.found. }
  assert (R2 : reaches (ro_old WroteProps.wrote_doc) (ro_default WroteProps.wrote_doc) (Items (Entry !"list" 7) !"l") !"l" WroteProps.wrote_l told_l).
  { eapply (reaches_item (ro_old WroteProps.wrote_doc) (ro_default WroteProps.wrote_doc) (Entry !"list" 7) !"list" WroteProps.wrote_list told_item !"l" _ WroteProps.wrote_l false); [eapply (goes_entry (ro_old WroteProps.wrote_doc) (ro_default WroteProps.wrote_doc) !"list" _ WroteProps.wrote_list false 7)|]; RunProps.found. }
  split; [exact R1|]. split; [exact R2|]. intros told tr E. split; [vm_compute; reflexivity|].
  assert (HG : has_root [(!"root", root_value)]) by reflexivity.
  assert (Q : forall q key l e fn args f, reaches (ro_old WroteProps.wrote_doc) (ro_default WroteProps.wrote_doc) q key l e -> informs fn args f -> E (of_list e fn args) tr (informed f tr (ask JsonProps.in_place WroteProps.wrote_doc q))).
  { intros q key l e fn args f Re In. exact (C75_tells (ro_old WroteProps.wrote_doc) JsonProps.in_place WroteProps.wrote_doc told p _ q key l e fn args f tr A HG Re In). }
  split; [eapply evals_R; [exact (Q _ _ _ _ _ _ _ R1 informs_len)|vm_compute; reflexivity]|]. split; [eapply evals_R; [exact (Q _ _ _ _ _ _ _ R1 informs_last)|vm_compute; reflexivity]|].
  split; [eapply evals_R; [exact (Q _ _ _ _ _ _ _ R2 informs_first)|vm_compute; reflexivity]|]. eapply evals_R; [exact (Q _ _ _ _ _ _ _ R2 (informs_key 1))|vm_compute; reflexivity].
Qed.

(** [root.c().value(0)] has a list [inner] of two items, [root.c().value(1)] has none; there are no
    more *)
Definition told_c : ldef JsonModel.def := match hget !"c" (ro_default run_doc) with Some (_, WCList (Def l) _) => l | _ => LDef [] [] false [] [] end.
Definition told_elem (k : nat) : expr := some_of (do (do var"root" !"c" []) !"value" [ENum (Z.of_nat k)]).
Definition told_inner (k : nat) : expr := if_some !"x" (told_elem k) (some_of (do (do var"x" !"inner" []) !"len" [])).
Lemma told_goes k : goes (ro_old run_doc) (ro_default run_doc) (Elem !"c" k) true !"c" told_c (told_elem k).
Proof. eapply (goes_elem (ro_old run_doc) (ro_default run_doc) !"c" _ told_c _ k); RunProps.found. Qed.
Lemma told_member : exists i l, In (!"inner", (i, DCil (Def l))) (ld_members told_c).
Proof. do 2 eexists. RunProps.found. Qed.
Lemma told_list : exists i items, In (!"c", (i, WCList (Def told_c) items)) (ro_default run_doc) /\ zlen items = 2.
Proof. do 2 eexists. split; [RunProps.found|vm_compute; reflexivity]. Qed.
Example C75_constant_case : exists p, accessible (ro_old run_doc) run_doc p /\ forall told tr, let E := evals p JsonProps.in_place run_doc told [(!"root", root_value)] in
  E (do (do var"root" !"c" []) !"len" []) tr (Ok (VNum 2, tr)) /\ E (do (do var"root" !"c" []) !"value" [ENum 2]) tr Panic /\
  E (told_inner 2) tr Panic /\
  exists n, E (told_inner 0) tr (Ok (some (VNum n), tr)) /\ visit JsonProps.in_place run_doc (Cil (Elem !"c" 0) !"inner" 1) <> Panic /\ visit JsonProps.in_place run_doc (Cil (Elem !"c" 0) !"inner" 2) = Panic /\ n = 2.
Proof.
  destruct run_accessible as (p & A). exists p. split; [exact A|]. intros told tr E. assert (HG : has_root [(!"root", root_value)]) by reflexivity.
  destruct told_list as (i & items & I & Z2). destruct (C75_constant (ro_old run_doc) JsonProps.in_place run_doc told p _ !"c" i told_c items tr A HG I) as (X & Y). rewrite Z2 in X, Y.
  split; [exact X|]. split; [exact (Y 2%nat)|]. destruct told_member as (j & l & J).
  split; [exact (C75_inner_constant (ro_old run_doc) JsonProps.in_place run_doc told p _ (Elem !"c" 2) !"c" told_c (told_elem 2) !"inner" j l tr A HG (told_goes 2) J)|].
  destruct (C75_inner_constant (ro_old run_doc) JsonProps.in_place run_doc told p _ (Elem !"c" 0) !"c" told_c (told_elem 0) !"inner" j l tr A HG (told_goes 0) J) as (n & N & V).
  exists n. split; [exact N|]. split; [vm_compute; discriminate|]. split; [vm_compute; reflexivity|].
  pose proof (V 1%nat) as V1. pose proof (V 2%nat) as V2. destruct (Z.ltb_spec (Z.of_nat 1) n); [|vm_compute in V1; discriminate V1]. destruct (Z.ltb_spec (Z.of_nat 2) n); [|lia]. destruct V2 as (s & V2). vm_compute in V2. discriminate V2.
Qed.
