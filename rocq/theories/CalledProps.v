(** C71: the calls accessors hand out change lists. *)
From Coq Require Import String.
From Verif Require Import Base StringCompactionModel StringCompactionProofs LinkedModel LinkedSpec DocModel DiffModel DiffSpec DiffProofs DiffProofs2 DiffEditProofs ArchiveModel JsonModel JsonSpec ValidModel ValidSpec EmbedSpec EmbedProofs IntfModel IntfSpec IntfProofs SizeSpec SizeProofs SavedModel SavedProofs ReadModel AgainModel AgainSpec AgainProofs GenModel GenSpec GenProofs GenWellProofs GenRunProofs CodeSpec CodeNameProofs ApiModel TypeSpec TypeProofs TypeGenProofs RunModel RunSpec RunProofs RunGenProofs RunWayProofs RunAskProofs RunProps WroteSpec WroteProofs WroteStepProofs ListedSpec ListedProofs ListedAskProofs ListedStepProofs ListedProps CalledSpec CalledProofs.
From Verif Require WroteProps EmbedProps JsonProps.

Local Notation text := (list Z).
Local Notation "! s" := (txt s%string) (at level 0, s at level 0).
Local Notation "'var' s" := (EVar (txt s%string)) (at level 0, s at level 0).

Section Props.
Variable old : list name.
Variable iter : forall A, hmap A -> hmap A.
Variable r : root_obj.
Variable told : effect -> bool.
Variable p : list CodeSpec.item.
Variable G : env.
Variable mem : Z -> list Z.
Context {n : nat}.
Variable def : rootdef n.
Variable f : sabun n.
Local Notation root := (ro_default r).

(** Calling a method of a list: [root.t_mut().insert()], [x.s_mut().move_to_prev(a, b)] and so on.
    The answer is as it should be, and the list changes as it should. *)
Theorem C71_list : forall a key l e d o op fn args, accessible old r p -> has_root G -> holds mem def f r -> few_rootdef def ->
  lists old root a key l e -> list_in r a key = Some (d, o) -> calls op fn args -> fits_insert op (now o) ->
  let was := ids (fst (now o)) in let next := snd (now o) in
  exists f', makes mem p iter r told G (do e fn args) (reply op a key l was next) def f f' /\
    let t := with_members r f' in holds mem def f' t /\ accessible old t p /\ reordered r t a key (Def l) op was next.
Proof.
  intros a key l e d o op fn args A HG H Few L Li C F was next. pose proof A as (T & parts & D & E). 
  destruct (C70_list mem n def f r a key d o op H Few Li F) as (f' & R & Ho & Re).
  assert (d = Def l) as ->. { destruct (lists_rule old iter r told T parts D _ _ _ _ _ _ L Li) as (-> & _). reflexivity. }
  destruct (open_then mem def f r H a key _ o op Li) as (Ok1 & Ge1 & Op & f1 & R1 & R2). rewrite R in R2.
  exists f'. split; [|split; [exact Ho|split; [exact A|exact Re]]].
  intros tr. exists (opens a ++ [EOpen a key; EList a key op]), (open_steps [] a ++ [step_at a (OOpen key) (IOpen key); list_step a key op]). split; [|split; [|split; [|split]]].
  - subst p. apply evals_EV. exact (change_rule old iter r told T parts D a key l e _ o op fn args G tr L Li C F HG).
  - apply Forall2_app; [apply opens_perform|]. constructor; [apply performs_open|]. constructor; [apply performs_list|constructor].
  - apply Forall_app. split; [eapply Forall_impl; [|exact Op]; cbn beta; tauto|]. constructor; [exact Ok1|]. constructor; [apply ok_list_step|constructor].
  - apply Forall_app. split; [eapply Forall_impl; [|exact Op]; cbn beta; tauto|]. constructor; [exact Ge1|]. constructor; [apply generated_list_step|constructor].
  - exact (run_opened mem def f _ _ _ _ _ _ Op R1 R2).
Qed.

(** Asking a list. *)
Theorem C71_tells : forall a key l e d o fn args v tr, accessible old r p -> has_root G -> lists old root a key l e -> list_in r a key = Some (d, o) -> tells (ids (fst (now o))) (snd (now o)) fn args v ->
  evals p iter r told G (do e fn args) tr (Ok (v, tr ++ opens a ++ [EOpen a key])).
Proof.
  intros a key l e d o fn args v tr (T & parts & D & ->) HG L Li C. apply evals_EV. exact (tells_rule old iter r told T parts D a key l e d o fn args v G tr L Li C HG).
Qed.

(** A new item with a value: [root.t_mut().insert().set_x(v)]. *)
Theorem C71_new : forall a key l e d o op fn args k i p0 vt q ea, accessible old r p -> has_root G -> holds mem def f r -> few_rootdef def ->
  lists old root a key l e -> list_in r a key = Some (d, o) -> calls op fn args -> inserts op -> fits_insert op (now o) ->
  In (k, (i, DParam p0 vt)) (ld_members l) -> type_of q = type_of p0 -> allows_param vt q -> wf_param mem q -> RunSpec.plainly p iter r told G ea (as_marked VOf vt (contents q)) ->
  let was := ids (fst (now o)) in let next := snd (now o) in let b := a ++ [(key, next)] in
  exists f', makes mem p iter r told G (do (do e fn args) (!"set_" ++ with_old k (contains (ld_old l) k)) [ea]) VUnit def f f' /\
    let t := with_members r f' in holds mem def f' t /\ accessible old t p /\
    (forall iter x, items_of a key x -> ask iter t x = Ok (Ids (Some (new_order op was next)))) /\
    (forall w stem' e' tr, goes old root w false stem' l e' -> place w = Some b ->
      evals p iter t told G (asks e' (with_old k (contains (ld_old l) k))) tr (Ok (some (as_marked VOf vt (contents q)), tr))) /\
    (forall iter x, ~ items_of a key x -> (forall w, way_of x = Some w -> ~ passes b w) -> ask iter t x = ask iter r x).
Proof.
  intros a key l e d o op fn args k i p0 vt q ea A HG H Few L Li C Ins F I Ty Al Wf Ea was next b. pose proof A as (T & parts & D & Ep).
  destruct (C70_list mem n def f r a key d o op H Few Li F) as (f1 & R & Ho & Re & Un & _ & _ & l1 & Li1 & Ids1 & Nx1). fold was in Ids1, Re, Un; fold next in Ids1, Nx1, Re, Un.
  assert (d = Def l) as ->. { destruct (lists_rule old iter r told T parts D _ _ _ _ _ _ L Li) as (-> & _). reflexivity. }
  destruct (open_then mem def f r H a key _ o op Li) as (Ok1 & Ge1 & Op & f0 & R0 & R2). rewrite R in R2.
  set (r1 := with_members r f1) in *. set (s := (CItem [] [], Def l) : spot).
  assert (At : item_at r1 b = Some s).
  { destruct (list_call mem def f r H a key _ o op Li F) as (_ & g & Rg & Lg & _). rewrite R in Rg. apply Ok_inj in Rg. apply pair_equal_spec in Rg as [<- _]. fold r1 in Lg.
    unfold b. rewrite (item_in_list r1 a key _ _ next Lg). unfold mlist_item, next. destruct (F Ins) as (F1 & _). destruct (now o) as [l0 nx0]. exact (f_equal (option_map (fun c => (c, Def l))) (done_inserted (CItem [] []) op l0 nx0 Ins F1)). }
  pose proof (lists_listed old r _ _ _ _ L) as Ml. pose proof (member_get r T key l k _ (mlisted_listed _ _ _ Ml) I) as Hk.
  set (c := CItem (hset k (VParam q) []) []).
  destruct (root_put mem n def f1 r1 Ho b s (OSet k q) (ISet k q) true c At) as (f' & R3 & W).
  { intros m d it (Pl & Dd & Ti). pose proof (def_param m _ d k i p0 vt Dd Hk) as Hd. cbn [item_do]. unfold item_set. rewrite Hd.
    assert (V : verify_set_sabun p0 vt q = true) by (apply verify_iff; split; [exact Ty|exact Al]). rewrite V. destruct it as [vs rs]. cbn [s fst plain_item plain_item_of it_values it_refs] in Pl. injection Pl as Pv Pr.
    destruct vs as [|z vs]; [|discriminate]. subst rs. cbn [it_values hget]. eexists. split; [reflexivity|]. reflexivity. }
  assert (St : ok_root_step mem def (step_at b (OSet k q) (ISet k q)) /\ generated_root_step def (step_at b (OSet k q) (ISet k q))).
  { split; [apply (root_ok mem n def f1 r1 Ho b s _ _ At); intros; exact Wf|apply (root_generated mem n def f1 r1 Ho b s _ _ At); intros; exact Logic.I]. }
  assert (Run : program_run def f ((open_steps [] a ++ [step_at a (OOpen key) (IOpen key); list_step a key op]) ++ [step_at b (OSet k q) (ISet k q)]) = Ok f').
  { pose proof (run_opened mem def f _ _ _ _ _ _ Op R0 R2) as X. unfold program_run in *. rewrite mfold_app, X. cbn [bind mfold]. rewrite R3. reflexivity. }
  assert (Fo : Forall (ok_root_step mem def) ((open_steps [] a ++ [step_at a (OOpen key) (IOpen key); list_step a key op]) ++ [step_at b (OSet k q) (ISet k q)])).
  { apply Forall_app. split; [|constructor; [apply St|constructor]]. apply Forall_app. split; [eapply Forall_impl; [|exact Op]; cbn beta; tauto|]. constructor; [exact Ok1|]. constructor; [apply ok_list_step|constructor]. }
  exists f'. split; [|split; [|split; [exact A|]]].
  - intros tr. exists ((opens a ++ [EOpen a key; EList a key op]) ++ [ESet b (type_of p0) k (of_qv VOf (contents q))]). eexists. split; [|split; [|split; [exact Fo|split; [|exact Run]]]].
    + subst p. apply evals_EV. unfold do at 1. eapply ev_call1; [exact (change_rule old iter r told T parts D a key l e _ o op fn args G tr L Li C F HG)|apply Ea|].
      eapply conv_R; [eapply (call_set old iter r told T parts D key l k i p0 vt (contents q) b s); [exact Ml|exact I|apply allows_unwrapped, WroteProps.allows_contents, Al|]|].
      * destruct Ins as [-> | ->]; reflexivity.
      * rewrite <- !app_assoc. reflexivity.
    + apply Forall2_app; [|constructor; [apply performs_set, Ty|constructor]]. apply Forall2_app; [apply opens_perform|]. constructor; [apply performs_open|]. constructor; [apply performs_list|constructor].
    + apply Forall_app. split; [|constructor; [apply St|constructor]]. apply Forall_app. split; [eapply Forall_impl; [|exact Op]; cbn beta; tauto|]. constructor; [exact Ge1|]. constructor; [apply generated_list_step|constructor].
  - destruct H as (Rd & _ & Tf). split; [exact Rd|]. split; [reflexivity|]. eapply program_typed; [exact Few|exact Fo|exact Tf|exact Run].
  - change (with_members r f') with (with_members r1 f'). set (t := with_members r1 f').
    assert (Mil : forall x, spot_mil (c, snd s) x = spot_mil s x).
    { intros x. unfold spot_mil. cbn [fst snd s undef]. unfold c. cbn [ci_values hset hget]. destruct (eqb_bytes k x) eqn:B; [apply eqb_bytes_eq in B; subst x; rewrite Hk|]; reflexivity. }
    assert (Cil : forall x, spot_cil (c, snd s) x = spot_cil s x).
    { intros x. unfold spot_cil. cbn [fst snd s undef]. unfold c. cbn [ci_values hset hget]. destruct (eqb_bytes k x) eqn:B; [apply eqb_bytes_eq in B; subst x; rewrite Hk|]; reflexivity. }
    assert (Same : forall iter x, (forall w, x = Param w k -> place w <> Some b) -> ask iter t x = ask iter r1 x).
    { intros it0 x Nx. unfold t. rewrite W. apply (put_answers it0 r1 b s c At Mil Cil).
      - intros w _. left. reflexivity.
      - intros w k' -> Pw. unfold get_param. cbn [snd s undef]. destruct (hget k' (ld_members l)) as [[j [p1 vt1|d1|d1 u1]]|] eqn:Hk'; try reflexivity. f_equal. f_equal. unfold spot_param. cbn [fst snd s undef]. unfold c. cbn [ci_values hset hget]. rewrite eqb_bytes_neq; [reflexivity|].
        intros <-. exact (Nx w eq_refl Pw).
      - intros w k' _ _. reflexivity.
      - intros w _ _. reflexivity. }
    split; [|split].
    + intros it0 x Qx. rewrite Same; [apply Re, Qx|]. intros w ->. destruct Qx.
    + intros w stem' e' tr Go Pw. eapply evals_R; [eapply (C68_read old iter t told p G w false stem' l e' k i p0 vt tr A HG Go I)|].
      unfold read_at. unfold t. rewrite W. rewrite (proj2 (visit_at iter r1 b s c At Mil Cil w Pw)). cbn [bind]. unfold get_param. cbn [snd s undef]. rewrite Hk. unfold spot_param. cbn [fst]. unfold c. cbn [ci_values hset hget]. rewrite eqb_bytes_refl.
      cbn [get_as]. rewrite (proj2 (eqb_type_iff _ _) Ty). rewrite (unwrapped_allowed vt q Al). reflexivity.
    + intros it0 x Nq Np. rewrite Same.
      * apply Un; [exact Nq|]. intros w y Hw [(_ & ->)|Rm]; [exact (Np w Hw)|]. destruct Ins as [-> | ->]; destruct Rm.
      * intros w -> Pw. exact (Np w eq_refl (place_passes _ _ Pw)).
Qed.
End Props.
Print Assumptions C71_list.
Print Assumptions C71_tells.
Print Assumptions C71_new.

(* ------------------------------------------------------------------ *)
(** * A case *)

Import WroteProps(wrote_doc, wrote_def, wrote_start, wrote_holds, wrote_accessible, wrote_list, wrote_l).
Import EmbedProps(text_at).
Import JsonProps(in_place).

Local Notation inner := (do (do (do (do var"root" !"list_mut" []) !"get_mut" [ENum 7]) !"unwrap" []) !"l_mut" []).
Lemma wrote_lists : lists (ro_old wrote_doc) (ro_default wrote_doc) [(!"list", 7)] !"l" wrote_l inner /\ lists (ro_old wrote_doc) (ro_default wrote_doc) [] !"list" wrote_list (do var"root" !"list_mut" []).
Proof.
  split.
  - eapply (lists_item (ro_old wrote_doc) (ro_default wrote_doc) [(!"list", 7)] !"list" wrote_list _ !"l" _ wrote_l false); [eapply (seizes_root (ro_old wrote_doc) (ro_default wrote_doc) !"list" _ wrote_list false 7); found|found].
  - eapply (lists_root (ro_old wrote_doc) (ro_default wrote_doc) !"list" _ wrote_list false); found.
Qed.

(** [root.list_mut().move_to_prev(0, 7)] puts the item 7 before the item 0, and answers [true];
    [root.list_mut().move_to_prev(0, 5)] answers [false]; there are two items, and the next one
    will be the item 8. *)
Example C71_list_case : exists p, accessible (ro_old wrote_doc) wrote_doc p /\ forall told, let G := [(!"root", root_value)] in
  (exists d, makes text_at p in_place wrote_doc told G (do (do var"root" !"list_mut" []) !"move_to_prev" [ENum 0; ENum 7]) (VBool true) wrote_def wrote_start d /\
    ask in_place wrote_doc (RootItems !"list") = Ok (Ids (Some [0; 7])) /\ ask in_place (with_members wrote_doc d) (RootItems !"list") = Ok (Ids (Some [7; 0]))) /\
  (exists d, makes text_at p in_place wrote_doc told G (do (do var"root" !"list_mut" []) !"move_to_prev" [ENum 0; ENum 5]) (VBool false) wrote_def wrote_start d /\
    ask in_place (with_members wrote_doc d) (RootItems !"list") = Ok (Ids (Some [0; 7]))) /\
  forall tr, evals p in_place wrote_doc told G (do (do var"root" !"list_mut" []) !"len" []) tr (Ok (VNum 2, tr ++ [EOpen [] !"list"])) /\
    evals p in_place wrote_doc told G (do (do var"root" !"list_mut" []) !"next_id" []) tr (Ok (VNum 8, tr ++ [EOpen [] !"list"])).
Proof.
  destruct wrote_accessible as (p & A). exists p. split; [exact A|]. intros told G. destruct wrote_holds as (Few & H). assert (HG : has_root G) by reflexivity. destruct wrote_lists as (_ & L).
  assert (Li : exists o, list_in wrote_doc [] !"list" = Some (Def wrote_list, Some o) /\ ids (fst o) = [0; 7] /\ snd o = 8) by (eexists; split; [vm_compute; reflexivity|split; vm_compute; reflexivity]).
  destruct Li as (o & Li & Io & No). split; [|split].
  - destruct (C71_list (ro_old wrote_doc) in_place wrote_doc told p G text_at wrote_def wrote_start [] !"list" wrote_list _ _ (Some o) _ _ _ A HG H Few L Li (calls_to_prev 0 7)) as (d & M & _ & _ & Re & _); [intros [E|E]; discriminate|].
    cbn [now] in *. rewrite Io in M, Re. exists d. split; [exact M|]. split; [vm_compute; reflexivity|]. exact (Re in_place (RootItems !"list") (conj eq_refl eq_refl)).
  - destruct (C71_list (ro_old wrote_doc) in_place wrote_doc told p G text_at wrote_def wrote_start [] !"list" wrote_list _ _ (Some o) _ _ _ A HG H Few L Li (calls_to_prev 0 5)) as (d & M & _ & _ & Re & _); [intros [E|E]; discriminate|].
    cbn [now] in *. rewrite Io in M, Re. exists d. split; [exact M|]. exact (Re in_place (RootItems !"list") (conj eq_refl eq_refl)).
  - intros tr. split; eapply (C71_tells (ro_old wrote_doc) in_place wrote_doc told p G [] !"list" wrote_list _ _ (Some o)); [exact A|exact HG|exact L|exact Li| |exact A|exact HG|exact L|exact Li|]; cbn [now]; rewrite Io, No; [apply tells_len|apply tells_next].
Qed.

(** [root.list_mut().get_mut(7).unwrap().l_mut().insert_first().set_y(v)] *)
Example C71_new_case : exists p, accessible (ro_old wrote_doc) wrote_doc p /\ forall told, let G := [(!"root", root_value); (!"v", VOf (CInt 9))] in
  exists d, makes text_at p in_place wrote_doc told G (do (do inner !"insert_first" []) !"set_y" [var"v"]) VUnit wrote_def wrote_start d /\
  let t := with_members wrote_doc d in
  ask in_place wrote_doc (Items (Entry !"list" 7) !"l") = Ok (Ids (Some [0])) /\ ask in_place t (Items (Entry !"list" 7) !"l") = Ok (Ids (Some [1; 0])) /\
  (forall tr, evals p in_place t told G (asks (if_some !"x" (item_in false (do var"root" !"list" []) 7) (item_in false (do var"x" !"l" []) 1)) !"y") tr (Ok (some (VOf (CInt 9)), tr))) /\
  ask in_place t (Param (Mil (Entry !"list" 7) !"l" 0) !"y") = Ok (Value (Val (CInt 4))).
Proof.
  destruct wrote_accessible as (p & A). exists p. split; [exact A|]. intros told G. destruct wrote_holds as (Few & H). assert (HG : has_root G) by reflexivity. destruct wrote_lists as (L & _).
  assert (Li : exists o, list_in wrote_doc [(!"list", 7)] !"l" = Some (Def wrote_l, Some o) /\ ids (fst o) = [0] /\ snd o = 1 /\ zlen (fst o) = 1) by (eexists; split; [vm_compute; reflexivity|split; [vm_compute; reflexivity|split; vm_compute; reflexivity]]).
  destruct Li as (o & Li & Io & No & Zo).
  assert (V : plainly p in_place wrote_doc told G var"v" (as_marked VOf Normal (contents (PInt (Val 9))))) by (intros tr'; apply evals_EV, ev_var; [shut|look]).
  destruct (C71_new (ro_old wrote_doc) in_place wrote_doc told p G text_at wrote_def wrote_start [(!"list", 7)] !"l" wrote_l _ _ (Some o) _ _ _ !"y" 0 (PInt (Val 0)) Normal (PInt (Val 9)) var"v" A HG H Few L Li calls_insert_first (or_introl eq_refl))
    as (d & M & _ & _ & Re & Ne & Un); [intros _; cbn [now]; rewrite Io, No, Zo; split; [intros [E|[]]; discriminate|split; reflexivity]|found|reflexivity|exact Logic.I|cbn; unfold i64_range; lia|exact V|].
  cbn [now] in *. rewrite Io, No in *. exists d. split; [exact M|]. split; [vm_compute; reflexivity|]. split; [exact (Re in_place (Items (Entry !"list" 7) !"l") (conj eq_refl eq_refl))|]. split.
  - intros tr. refine (Ne (Mil (Entry !"list" 7) !"l" 1) !"l" _ tr _ eq_refl).
    eapply (goes_mil (ro_old wrote_doc) (ro_default wrote_doc) (Entry !"list" 7) !"list" wrote_list _ !"l" _ wrote_l false 1); [eapply (goes_entry (ro_old wrote_doc) (ro_default wrote_doc) !"list" _ wrote_list false 7)|]; found.
  - transitivity (ask in_place wrote_doc (Param (Mil (Entry !"list" 7) !"l" 0) !"y")); [|vm_compute; reflexivity]. apply Un; [intros X; exact X|]. intros w Hw. apply Some_inj in Hw. subst w. vm_compute. intuition discriminate.
Qed.
