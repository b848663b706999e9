(** C70: changing a list changes that list as it should, and nothing else. *)
From Coq Require Import String.
From Verif Require Import Base StringCompactionModel StringCompactionProofs LinkedModel LinkedSpec DocModel DiffModel DiffSpec DiffProofs ArchiveModel JsonModel IntfModel IntfSpec IntfProofs SavedModel SavedProofs ReadModel AgainModel AgainSpec RunModel RunSpec WroteSpec ListedSpec ListedProofs ListedAskProofs ListedStepProofs.
From Verif Require WroteProps EmbedProps JsonProps.

Local Notation "! s" := (txt s%string) (at level 0, s at level 0).

(** Inserting, removing and moving items.  The list is that of the root or of an item, at any
    depth; the document is one whose members are as they are declared (C69_loaded). *)
Theorem C70_list : forall mem n (def : rootdef n) f r a key d o op, holds mem def f r -> few_rootdef def -> list_in r a key = Some (d, o) -> fits_insert op (now o) ->
  let was := ids (fst (now o)) in let next := snd (now o) in
  exists f', root_run def f (list_step a key op) = Ok (f', answered op was) /\ let t := with_members r f' in holds mem def f' t /\
    (* the items and their order *)
    (forall iter q, items_of a key q -> ask iter t q = Ok (Ids (Some (new_order op was next)))) /\
    (* nothing else changes *)
    (forall iter q, ~ items_of a key q -> (forall w x, way_of q = Some w -> touched op was next x -> ~ passes (a ++ [(key, x)]) w) -> ask iter t q = ask iter r q) /\
    (* a new item is as its definition says *)
    (inserts op -> forall iter w, place w = Some (a ++ [(key, next)]) -> ask iter t (There w) = Ok Something /\
      (forall k i p vt, hget k (ld_members (undef d)) = Some (i, DParam p vt) -> ask iter t (Param w k) = (v <- unwrapped vt (Some (contents p)) ; Ok (Value v))) /\
      (forall k i d' u, hget k (ld_members (undef d)) = Some (i, DMil d' u) -> ask iter t (Items w k) = Ok (Ids (Some []))) /\
      (forall k i q vt, ld_enum (undef d) = false -> hget k (ld_refs (undef d)) = Some (i, (q, vt)) -> ask iter t (RefId w k) = (v <- unwrapped vt (Some q) ; Ok (RowName v)))) /\
    (* a removed one is gone *)
    (forall iter w x, removed op was x -> place w = Some (a ++ [(key, x)]) -> ask iter t (There w) = Ok Nothing) /\
    (* the list can be changed again *)
    exists l, list_in t a key = Some (d, Some l) /\ ids (fst l) = new_order op was next /\ snd l = next_after op next.
Proof.
  intros mem n def f r a key d o op H Few Li F was next. destruct (list_call mem def f r H a key d o op Li F) as (Nd & f' & R & Li' & Sh). fold was in Nd, R, Sh. fold next in Sh.
  exists f'. split; [exact R|]. intros t.
  assert (Ids : map fst (fst (done (CItem [] []) op (now o))) = new_order op was next).
  { unfold was, next. destruct (now o) as [l nx]. exact (done_ids (CItem [] []) op l nx Nd). }
  split; [|split; [|split; [|split; [|split]]]].
  - destruct H as (Rd & _ & T). split; [exact Rd|]. split; [reflexivity|]. apply (program_typed mem n def [list_step a key op] Few ltac:(constructor; [apply ok_list_step|constructor]) f f' T).
    unfold program_run. cbn [mfold]. rewrite R. reflexivity.
  - intros iter q Q. destruct (Sh iter) as (A & _). rewrite <- Ids. exact (A q Q).
  - intros iter. apply (Sh iter).
  - intros I iter w P. destruct (Sh iter) as (_ & _ & A). specialize (A w next P).
    assert (L : lookup next (fst (done (CItem [] []) op (now o))) = Some (CItem [] [])).
    { unfold next. destruct (F I) as (F1 & _). destruct (now o) as [l nx]. exact (done_inserted (CItem [] []) op l nx I F1). }
    rewrite L in A. cbn [option_map] in A. change (visit iter t w = Ok (Some (CItem [] [], d))) in A. split; [|split; [|split]].
    + cbn [ask]. unfold at_item. rewrite A. reflexivity.
    + intros k i p vt Hk. cbn [ask]. unfold at_item. rewrite A. cbn [bind]. unfold get_param, spot_param. cbn [fst snd ci_values hget]. rewrite Hk. cbn [get_as]. rewrite (proj2 (eqb_type_iff _ _) eq_refl). reflexivity.
    + intros k i d' u Hk. cbn [ask]. unfold at_item. rewrite A. cbn [bind snd]. unfold spot_mil. cbn [fst snd ci_values hget]. rewrite Hk. reflexivity.
    + intros k i q vt En Hk. cbn [ask]. unfold at_item. rewrite A. cbn [bind]. unfold get_ref_id, spot_ref_id. cbn [fst snd ci_refs hget]. rewrite En, Hk. reflexivity.
  - intros iter w x Rm P. destruct (Sh iter) as (_ & _ & A). specialize (A w x P).
    assert (L : lookup x (fst (done (CItem [] []) op (now o))) = None).
    { clear A. unfold was in *. destruct (now o) as [l nx]. exact (done_removed (CItem [] []) op l nx x Nd Rm). }
    rewrite L in A. cbn [ask]. unfold at_item. change (visit iter t w = Ok None) in A. rewrite A. reflexivity.
  - exists (done (CItem [] []) op (now o)). split; [exact Li'|]. split; [exact Ids|]. unfold next. destruct (now o) as [l nx]. rewrite done_next. destruct op; reflexivity.
Qed.
Print Assumptions C70_list.

Lemma drop_absent id l : ~ In id l -> drop id l = l.
Proof. induction l as [|z l IH]; [reflexivity|]. intros N. unfold drop. cbn [filter]. destruct (Z.eqb_spec z id) as [->|]; [destruct N; left; reflexivity|]. cbn [negb]. f_equal. apply IH. intros I. apply N. right. exact I. Qed.
Lemma drop_app id l m : drop id (l ++ m) = drop id l ++ drop id m.
Proof. apply filter_app. Qed.
Lemma drop_self id : drop id [id] = [].
Proof. unfold drop. cbn [filter]. rewrite Z.eqb_refl. reflexivity. Qed.
Lemma not_in_drop id l : ~ In id (drop id l).
Proof. unfold drop. rewrite filter_In, Z.eqb_refl. cbn. intros [_ H]. discriminate. Qed.
Lemma known_iff id l : known id l = true <-> In id l.
Proof. unfold known. rewrite existsb_exists. split; [intros (x & I & E); apply Z.eqb_eq in E; subst x; exact I|intros I; exists id; split; [exact I|apply Z.eqb_refl]]. Qed.
Lemma drop_perm id l : NoDup l -> In id l -> Permutation (id :: drop id l) l.
Proof.
  intros N I. apply in_split in I as (l1 & l2 & ->). apply NoDup_remove_2 in N. rewrite drop_app. change (id :: l2) with ([id] ++ l2) at 1. rewrite drop_app, drop_self.
  rewrite !drop_absent by (intros I; apply N, in_or_app; auto). cbn [app]. apply Permutation_middle.
Qed.
(** the orders of the theorem: moving keeps all items, and those that are not moved keep their
    order; the moved one is where it was asked to be *)
Theorem C70_moves : forall op id l next, NoDup l -> (op = LMoveToFirst id \/ op = LMoveToLast id \/ exists k, op = LMoveToPrev k id \/ op = LMoveToNext k id) ->
  Permutation (new_order op l next) l /\ drop id (new_order op l next) = drop id l /\
  (answered op l = false -> new_order op l next = l) /\
  (answered op l = true -> match op with
    | LMoveToFirst _ => exists m, new_order op l next = id :: m
    | LMoveToLast _ => exists m, new_order op l next = m ++ [id]
    | LMoveToPrev k _ => exists m m', new_order op l next = m ++ id :: k :: m'
    | LMoveToNext k _ => exists m m', new_order op l next = m ++ k :: id :: m'
    | _ => False
    end).
Proof.
  intros op id l next N M.
  assert (Dd : drop id (drop id l) = drop id l) by apply drop_absent, not_in_drop.
  assert (Pair : forall k g, (g = (fun x => if x =? k then [id; x] else [x]) \/ g = (fun x => if x =? k then [x; id] else [x])) -> In id l -> In k l -> id <> k ->
    exists m m', drop id l = m ++ k :: m' /\ flat_map g (drop id l) = m ++ g k ++ m' /\ ~ In id m /\ ~ In id m' /\ Permutation (id :: m ++ k :: m') l).
  { intros k g Hg I K Ne. assert (K' : In k (drop id l)) by (unfold drop; apply filter_In; split; [exact K|]; destruct (Z.eqb_spec k id); [congruence|reflexivity]).
    pose proof (drop_perm id l N I) as P. pose proof (not_in_drop id l) as Nd. assert (N' : NoDup (drop id l)) by (apply NoDup_filter, N). apply in_split in K' as (m & m' & E). rewrite E in *.
    exists m, m'. split; [reflexivity|]. apply NoDup_remove_2 in N'.
    assert (F : forall z, ~ In k z -> flat_map g z = z). { intros z Nz. induction z as [|y z IH]; [reflexivity|]. cbn [flat_map]. rewrite IH by (intros Q; apply Nz; right; exact Q). destruct Hg as [-> | ->]; destruct (Z.eqb_spec y k) as [->|]; try (destruct Nz; left; reflexivity); reflexivity. }
    split; [rewrite flat_map_app; cbn [flat_map]; rewrite !F by (intros Q; apply N', in_or_app; auto); reflexivity|].
    split; [intros Q; apply Nd, in_or_app; auto|]. split; [intros Q; apply Nd, in_or_app; right; right; exact Q|exact P]. }
  destruct M as [-> |[-> |(k & [-> | ->])]]; cbn [new_order answered].
  - destruct (known id l) eqn:K; [|split; [reflexivity|split; [reflexivity|split; [reflexivity|discriminate]]]]. apply known_iff in K. split; [apply drop_perm; assumption|].
    split; [|split; [discriminate|intros _; eexists; reflexivity]]. change (id :: drop id l) with ([id] ++ drop id l). rewrite drop_app, drop_self. exact Dd.
  - destruct (known id l) eqn:K; [|split; [reflexivity|split; [reflexivity|split; [reflexivity|discriminate]]]]. apply known_iff in K. split; [rewrite <- Permutation_cons_append; apply drop_perm; assumption|].
    split; [|split; [discriminate|intros _; eexists; reflexivity]]. rewrite drop_app, drop_self, app_nil_r. exact Dd.
  - destruct (known id l && known k l && negb (id =? k)) eqn:K; [|split; [reflexivity|split; [reflexivity|split; [reflexivity|discriminate]]]].
    apply andb_true_iff in K as [K K3]. apply andb_true_iff in K as [K1 K2]. apply known_iff in K1, K2. apply negb_true_iff, Z.eqb_neq in K3.
    destruct (Pair k _ (or_introl eq_refl) K1 K2 K3) as (m & m' & E & Fl & N1 & N2 & P). rewrite Fl, Z.eqb_refl. cbn [app]. split; [rewrite <- P; symmetry; apply Permutation_middle|].
    split; [|split; [discriminate|intros _; exists m, m'; reflexivity]]. rewrite <- Dd. rewrite E, !drop_app. f_equal. change (id :: k :: m') with ([id] ++ k :: m'). rewrite drop_app, drop_self. reflexivity.
  - destruct (known id l && known k l && negb (id =? k)) eqn:K; [|split; [reflexivity|split; [reflexivity|split; [reflexivity|discriminate]]]].
    apply andb_true_iff in K as [K K3]. apply andb_true_iff in K as [K1 K2]. apply known_iff in K1, K2. apply negb_true_iff, Z.eqb_neq in K3.
    destruct (Pair k _ (or_intror eq_refl) K1 K2 K3) as (m & m' & E & Fl & N1 & N2 & P). rewrite Fl, Z.eqb_refl. cbn [app]. 
    split; [rewrite <- P; replace (m ++ k :: id :: m') with ((m ++ [k]) ++ id :: m') by (rewrite <- app_assoc; reflexivity); replace (m ++ k :: m') with ((m ++ [k]) ++ m') by (rewrite <- app_assoc; reflexivity); symmetry; apply Permutation_middle|].
    split; [|split; [discriminate|intros _; exists m, m'; reflexivity]]. rewrite <- Dd. rewrite E, !drop_app. f_equal. change (k :: id :: m') with ([k] ++ [id] ++ m'). change (k :: m') with ([k] ++ m'). rewrite !drop_app, drop_self. reflexivity.
Qed.
Print Assumptions C70_moves.
Example C70_moves_case : NoDup [4; 2; 9; 7] /\ new_order (LMoveToNext 2 7) [4; 2; 9; 7] 10 = [4; 2; 7; 9] /\ answered (LMoveToNext 2 7) [4; 2; 9; 7] = true /\
  new_order (LMoveToPrev 4 7) [4; 2; 9; 7] 10 = [7; 4; 2; 9] /\ answered (LMoveToPrev 5 7) [4; 2; 9; 7] = false.
Proof. split; [repeat constructor; cbn; intuition discriminate|vm_compute; repeat (split; [reflexivity|]); reflexivity]. Qed.

(* ------------------------------------------------------------------ *)
(** * A case *)

Import WroteProps(wrote_doc, wrote_def, wrote_start, wrote_holds).
Import EmbedProps(text_at).
Import JsonProps(in_place).

(** An item is inserted into the list [l] of the item 7, and the item 7 becomes the first. *)
Example C70_case : exists f1 f2, root_run wrote_def wrote_start (list_step [(!"list", 7)] !"l" LInsertFirst) = Ok (f1, true) /\
  root_run wrote_def f1 (list_step [] !"list" (LMoveToFirst 7)) = Ok (f2, true) /\ let t := with_members wrote_doc f2 in
  ask in_place wrote_doc (RootItems !"list") = Ok (Ids (Some [0; 7])) /\ ask in_place t (RootItems !"list") = Ok (Ids (Some [7; 0])) /\
  ask in_place t (Items (Entry !"list" 7) !"l") = Ok (Ids (Some [1; 0])) /\ ask in_place t (Param (Mil (Entry !"list" 7) !"l" 1) !"y") = Ok (Value (Val (CInt 0))) /\
  ask in_place t (Param (Mil (Entry !"list" 7) !"l" 0) !"y") = Ok (Value (Val (CInt 4))) /\ holds text_at wrote_def f2 t.
Proof.
  destruct wrote_holds as (Few & H).
  destruct (C70_list text_at 2 wrote_def wrote_start wrote_doc [(!"list", 7)] !"l" _ _ LInsertFirst H Few ltac:(vm_compute; reflexivity)) as (f1 & R1 & H1 & I1 & U1 & N1 & _); [intros _; vm_compute; intuition discriminate|].
  pose proof (I1 in_place (Items (Entry !"list" 7) !"l") (conj eq_refl eq_refl)) as A1. pose proof (N1 (or_introl eq_refl) in_place (Mil (Entry !"list" 7) !"l" 1) eq_refl) as (_ & A2 & _).
  specialize (A2 !"y" _ _ _ ltac:(vm_compute; reflexivity)).
  assert (A3 : ask in_place (with_members wrote_doc f1) (Param (Mil (Entry !"list" 7) !"l" 0) !"y") = Ok (Value (Val (CInt 4)))).
  { rewrite U1; [vm_compute; reflexivity|intros []|]. intros w x Hw [(_ & ->)|[]]. injection Hw as <-. vm_compute. intuition discriminate. }
  assert (A4 : ask in_place (with_members wrote_doc f1) (RootItems !"list") = Ok (Ids (Some [0; 7]))).
  { rewrite U1; [vm_compute; reflexivity|intros (E & _); discriminate|discriminate]. }
  assert (L : exists d o, list_in (with_members wrote_doc f1) [] !"list" = Some (d, Some o) /\ ids (fst o) = [0; 7]).
  { cbn [ask] in A4. unfold list_in. unfold root_mlist in A4. destruct (hget !"list" (ro_default (with_members wrote_doc f1))) as [[j [p vt|d rows o|d x|d u]]|]; try discriminate A4.
    destruct (hget !"list" (ro_sabun (with_members wrote_doc f1))) as [[p|[o|]]|]; try discriminate A4; [|destruct u; discriminate A4].
    exists d, o. split; [reflexivity|]. cbn in A4. injection A4 as A4. exact A4. }
  destruct L as (d & o & L & Io).
  destruct (C70_list text_at 2 wrote_def f1 (with_members wrote_doc f1) [] !"list" d (Some o) (LMoveToFirst 7) H1 Few L) as (f2 & R2 & H2 & I2 & U2 & _); [intros [E|E]; discriminate|].
  cbn [now] in *. rewrite Io in *.
  exists f1, f2. split; [exact R1|]. split; [exact R2|]. split; [vm_compute; reflexivity|]. split; [|split; [|split; [|split]]].
  - exact (I2 in_place (RootItems !"list") (conj eq_refl eq_refl)).
  - etransitivity; [apply U2; [intros (E & _); discriminate|intros w x _ [([E|E] & _)|[]]; discriminate]|exact A1].
  - etransitivity; [apply U2; [intros []|intros w x _ [([E|E] & _)|[]]; discriminate]|exact A2].
  - etransitivity; [apply U2; [intros []|intros w x _ [([E|E] & _)|[]]; discriminate]|exact A3].
  - exact H2.
Qed.
