(** Proofs for C75. *)
From Coq Require Import String.
From Verif Require Import Base StringCompactionModel StringCompactionProofs LinkedModel LinkedSpec LinkedProofs DocModel DiffSpec DiffProofs ArchiveModel JsonModel IntfModel GenModel GenSpec GenProofs GenWellProofs.
From Verif Require Import CodeSpec ApiModel TypeSpec TypeProofs TypeGenProofs ReadModel AgainModel RunModel RunSpec RunProofs RunGenProofs RunWayProofs RunProps ListedSpec ListedProofs ToldSpec.

Local Notation text := (list Z).
Local Notation "! s" := (txt s%string) (at level 0, s at level 0).

Section Told.
Variable old : list name.
Variable iter : forall A, hmap A -> hmap A.
Variable r : root_obj.
Variable told : effect -> bool.
Local Notation root := (ro_default r).
Hypothesis T : tame root.
Variable parts : list (list item).
Hypothesis D : Forall2 declares (generate old root) parts.
Local Notation p := (concat parts).
Local Notation EV := (EV p iter r told).
Local Notation Method := (Method p iter r told).

Definition loc_in (q : question) : loc := match q with Items w _ => loc_at w | _ => [] end.

(** what an expression gives, in terms of the answer to the question *)
Definition agrees (q : question) (l : ldef def) (o : res (option (list (Z * citem)))) : Prop :=
  match ask iter r q with
  | Ok (Ids (Some was)) => exists items, o = Ok (Some items) /\ map fst items = was /\ forall id, visit iter r (way_in q id) = Ok (mlist_item items (Def l) id)
  | Ok _ => o = Ok None
  | Err => o = Err
  | Panic => o = Panic
  end.

Lemma opted_rule n G e w u t l a key O : match O with Some (_, d) => d = Def l | None => True end ->
  EV n G e w (gives (fun x => if u : bool then of_opt (fun items => list_of (mitem_type t) a key items (Def l)) (fst x) else match fst x with Some items => list_of (mitem_type t) a key items (Def l) | None => VUnit end) w (get_list u O)) ->
  EV n G (opted u e) w (gives (of_opt (fun items => list_of (mitem_type t) a key items (Def l))) w (x <- get_list u O ; Ok (fst x))).
Proof.
  intros Q H. destruct O as [[[items|] d]|]; unfold get_list in *; cbn [need Base.bind fst] in *; unfold opted; destruct u; cbn [Base.bind gives fst] in *; try exact H; (eapply ev_some; [exact H|reflexivity]).
Qed.

Lemma reaches_rule q key l e G w : reaches old root q key l e -> hget !"root" G = Some root_value ->
  mlisted root key l /\ exists o, agrees q l o /\ EV [] G e w (gives (of_opt (fun items => list_of (mitem_type key) (loc_in q) key items (Def l))) w o).
Proof.
  intros [t i l0 u I|w0 stem l0 e0 k i l' u Go I] HG.
  - split; [eapply mlisted_mlist; exact I|].
    assert (Q : match root_mlist r t with Some (_, d) => d = Def l0 | None => True end).
    { unfold root_mlist. rewrite (root_get r T t _ I). destruct (hget t (ro_sabun r)) as [[]|]; exact Logic.I || reflexivity. }
    exists (x <- get_list u (root_mlist r t) ; Ok (fst x)). split.
    + unfold agrees. cbn [ask way_in visit]. rewrite (root_get r T t _ I). destruct (get_list u (root_mlist r t)) as [[o d]| |] eqn:E; cbn [Base.bind ids_of fst option_map]; [|reflexivity..].
      unfold ids_of. cbn [fst]. destruct o as [items|]; cbn [option_map]; [|reflexivity]. exists items. split; [reflexivity|]. split; [reflexivity|]. intros id. unfold item_of_list. cbn [fst snd].
      assert (d = Def l0) as ->; [|reflexivity]. unfold get_list in E. destruct (root_mlist r t) as [[o' d']|]; [|discriminate E]. cbn [need Base.bind fst] in E. subst d'. destruct o'; [|destruct u; [|discriminate E]]; apply Ok_inj, pair_equal_spec in E as [_ <-]; reflexivity.
    + cbn [loc_in]. apply opted_rule; [exact Q|]. unfold do. eapply ev_call0; [apply ev_var; [shut|exact HG]|]. cbn [and_then]. eapply (call_mlist old iter r told T parts D); exact I.
  - pose proof (goes_spot old iter r T _ _ _ _ _ Go) as S. pose proof (goes_listed old r _ _ _ _ _ Go) as C. cbn [loc_in]. split; [eapply mlisted_mil; [exact C|exact I]|].
    assert (M : hget k (ld_members l0) = Some (i, DMil (Def l') u)) by exact (member_get r T stem l0 k _ (mlisted_listed _ _ _ C) I).
    exists (y <- visit iter r w0 ; match y with None => Ok None | Some s => x <- get_list u (spot_mil s k) ; Ok (fst x) end). split.
    + unfold agrees. cbn [ask way_in visit]. unfold at_item. destruct (visit iter r w0) as [[s|]| |]; cbn [Base.bind]; [|reflexivity..]. rewrite S. cbn [undef]. rewrite M.
      destruct (get_list u (spot_mil s k)) as [[o d]| |] eqn:E; cbn [Base.bind fst]; [|reflexivity..].
      unfold ids_of. cbn [fst]. destruct o as [items|]; cbn [option_map]; [|reflexivity]. exists items. split; [reflexivity|]. split; [reflexivity|]. intros id. unfold item_of_list. cbn [fst snd].
      assert (d = Def l') as ->; [|reflexivity]. unfold get_list, spot_mil in E. rewrite S in E. cbn [undef] in E. rewrite M in E.
      destruct (hget k (ci_values (fst s))) as [[| |[]]|]; cbn [need Base.bind fst option_map] in E; try (destruct u; [|discriminate E]); try discriminate E; apply Ok_inj, pair_equal_spec in E as [_ <-]; reflexivity.
    + eapply if_some_rule; [eapply (way_rule old iter r told T parts D); [exact Go|exact HG]|]. cbv beta. destruct (visit iter r w0) as [[s|]| |]; cbn [Base.bind gives]; try reflexivity.
      apply opted_rule.
      * unfold spot_mil. rewrite S. cbn [undef]. rewrite M. destruct (hget k (ci_values (fst s))) as [[]|]; reflexivity.
      * unfold do. eapply ev_call0; [apply ev_var; [shut|look]|]. cbn [and_then]. eapply (call_mil old iter r told T parts D); [exact C|exact I|apply handed_bare|exact S].
Qed.

Lemma call_informs fn args f t a key items l G e w : informs fn args f -> EV [] G e w (Ok (list_of (mitem_type t) a key items (Def l), w)) ->
  EV [] G (do e fn args) w (Ok (f (map fst items), w)).
Proof.
  intros C X. unfold do. assert (K : forall id, is_some (lookup id items) = known id (map fst items)) by (intros id; change (map fst items) with (ids items); rewrite known_in; unfold LinkedSpec.has; destruct (lookup id items); reflexivity).
  inversion C; subst; clear C; first [eapply ev_call0; [exact X|]; cbn [and_then]|eapply ev_call1; [exact X|apply ev_num|]]; apply conv_now; intros k; cbn [method_of list_of]; unfold list_of; cbn [method_of]; unfold guard_fn;
    change (eqb_bytes !"MListConst" !"MListMut") with false; change (eqb_bytes !"MListConst" !"MListConst") with true; cbv iota.
  - unfold zlen. rewrite map_length. reflexivity.
  - destruct items; reflexivity.
  - destruct items; reflexivity.
  - rewrite <- map_rev. transitivity (ret (of_opt (fun e : Z * citem => VNum (fst e)) (hd_error (rev items))) w); [reflexivity|]. destruct (rev items); reflexivity.
  - rewrite <- K. reflexivity.
Qed.

(** the ends of a list *)
Lemma call_end fn (o : option (Z * citem)) t l a key items w : mlisted root t l -> fn = !"first" /\ o = hd_error items \/ fn = !"last" /\ o = hd_error (rev items) ->
  Method (list_of (mitem_type t) a key items (Def l)) fn [] w
    (Ok (of_opt (fun e : Z * citem => VGuard !"MItemConst" (Some (mitem_type t)) (item_value (mitem_type t) (a ++ [(key, fst e)]) (snd e, Def l))) o, w)).
Proof.
  intros C F.
  assert (X : conv (fun k => match o with Some e => seq (converted p (eval p iter r told k) !"MItemConst" (mitem_type t) (PItem (a ++ [(key, fst e)]) (snd e, Def l))) (fun v => ret (some v)) | None => ret none end) w
    (Ok (of_opt (fun e : Z * citem => VGuard !"MItemConst" (Some (mitem_type t)) (item_value (mitem_type t) (a ++ [(key, fst e)]) (snd e, Def l))) o, w))).
  { destruct o as [e|]; [|apply conv_now; reflexivity].
    eapply conv_seq; [apply (converted_rule parts iter r told _ _ !"MItemPtr"); eapply (mitem_from old root T parts D); exact C|]. cbn [and_then]. apply conv_now. reflexivity. }
  eapply conv_ext; [|exact X]. intros k. destruct F as [(-> & ->)|(-> & ->)]; reflexivity.
Qed.
Lemma lookup_hd (items : list (Z * citem)) x c : hd_error items = Some (x, c) -> lookup x items = Some c.
Proof. destruct items as [|(k, y) items]; intros E; [discriminate E|]. injection E as -> ->. cbn [lookup]. rewrite Z.eqb_refl. reflexivity. Qed.
Lemma lookup_end (items : list (Z * citem)) x c : NoDup (map fst items) -> hd_error (rev items) = Some (x, c) -> lookup x items = Some c.
Proof.
  intros N E. destruct (rev items) as [|y l] eqn:R; [discriminate E|]. injection E as ->. apply (f_equal (@rev _)) in R. rewrite rev_involutive in R. cbn [rev] in R. subst items.
  generalize dependent (rev l). clear l. intros l N. induction l as [|(k, y) l IH]; cbn [app lookup map fst] in *; [rewrite Z.eqb_refl; reflexivity|].
  apply NoDup_cons_iff in N as [N1 N2]. destruct (Z.eqb_spec x k) as [->|_]; [|exact (IH N2)]. exfalso. apply N1. rewrite map_app. apply in_or_app. right. left. reflexivity.
Qed.
End Told.
