(** Proofs for C70. *)
From Verif Require Import Base CompactionModel CompactionSpec StringCompactionModel StringCompactionProofs LinkedModel LinkedSpec LinkedProofs DocModel DiffModel DiffWireModel DiffSpec DiffEditSpec DiffProofs DiffProofs2 DiffProofs3 DiffEditProofs
  ArchiveModel JsonModel JsonSpec ValidModel ValidSpec EmbedSpec EmbedProofs IntfModel IntfSpec IntfProofs
  SizeSpec SizeProofs SavedModel SavedProofs ReadModel AgainModel AgainSpec AgainProofs RunModel RunSpec RunAskProofs WroteSpec WroteProofs WroteStepProofs ListedSpec.

(* ------------------------------------------------------------------ *)
(** * Lists *)

Definition op_of {V} (v : V) (o : list_op) : lop V :=
  match o with
  | LInsertFirst => InsertFirst v | LInsertLast => InsertLast v
  | LRemove id => Remove id | LRemoveFirst => RemoveFirst | LRemoveLast => RemoveLast
  | LMoveToFirst id => MoveToFirst id | LMoveToLast id => MoveToLast id
  | LMoveToPrev k id => MoveToPrev k id | LMoveToNext k id => MoveToNext k id
  end.
Definition done {V} (v : V) (o : list_op) (l : list (Z * V) * Z) : list (Z * V) * Z := fst (astep l (op_of v o)).

Section Lists.
Context {V : Type}.
Implicit Types l : list (Z * V).

Lemma known_in id l : known id (ids l) = has id l.
Proof.
  unfold known. destruct (has id l) eqn:E.
  - apply has_in in E. apply existsb_exists. exists id. split; [exact E|apply Z.eqb_refl].
  - destruct (existsb _ _) eqn:F; [|reflexivity]. apply existsb_exists in F as (x & I & X). apply Z.eqb_eq in X; subst x. apply has_in in I. congruence.
Qed.
Lemma ids_before k (x : Z * V) l : NoDup (ids l) -> ids (before k x l) = flat_map (fun y => if y =? k then [fst x; y] else [y]) (ids l).
Proof.
  induction l as [|[y v] l IH]; [reflexivity|]. intros N. change (ids ((y, v) :: l)) with (y :: ids l) in *. inversion N as [|? ? Ny Nl]; subst. cbn [before fst flat_map].
  destruct (Z.eqb_spec y k) as [->|Ne].
  - change (ids (x :: (k, v) :: l)) with (fst x :: k :: ids l). cbn [app]. f_equal. f_equal. clear IH N Nl. induction (ids l) as [|z m IHm]; [reflexivity|]. cbn [flat_map]. destruct (Z.eqb_spec z k) as [->|Nz]; [destruct Ny; left; reflexivity|]. cbn [app]. f_equal. apply IHm. intros I. apply Ny. right. exact I.
  - change (ids ((y, v) :: before k x l)) with (y :: ids (before k x l)). rewrite IH by exact Nl. reflexivity.
Qed.
Lemma ids_after k (x : Z * V) l : NoDup (ids l) -> ids (after k x l) = flat_map (fun y => if y =? k then [y; fst x] else [y]) (ids l).
Proof.
  induction l as [|[y v] l IH]; [reflexivity|]. intros N. change (ids ((y, v) :: l)) with (y :: ids l) in *. inversion N as [|? ? Ny Nl]; subst. cbn [after fst flat_map].
  destruct (Z.eqb_spec y k) as [->|Ne].
  - change (ids ((k, v) :: x :: l)) with (k :: fst x :: ids l). cbn [app]. f_equal. f_equal. clear IH N Nl. induction (ids l) as [|z m IHm]; [reflexivity|]. cbn [flat_map]. destruct (Z.eqb_spec z k) as [->|Nz]; [destruct Ny; left; reflexivity|]. cbn [app]. f_equal. apply IHm. intros I. apply Ny. right. exact I.
  - change (ids ((y, v) :: after k x l)) with (y :: ids (after k x l)). rewrite IH by exact Nl. reflexivity.
Qed.
Lemma nodup_filter (p : Z -> bool) (m : list Z) : NoDup m -> NoDup (filter p m).
Proof. apply NoDup_filter. Qed.
Lemma ids_tl l : ids (tl l) = tl (ids l).
Proof. destruct l; reflexivity. Qed.
Lemma ids_removelast l : ids (removelast l) = removelast (ids l).
Proof. unfold ids. induction l as [|x l IH]; [reflexivity|]. destruct l as [|y l]; [reflexivity|]. change (removelast (x :: y :: l)) with (x :: removelast (y :: l)). cbn [map] in *. rewrite IH. reflexivity. Qed.

Lemma done_ids (v : V) o l nx : NoDup (ids l) -> ids (fst (done v o (l, nx))) = new_order o (ids l) nx.
Proof.
  intros N. pose proof (fun id => nodup_filter (fun x => negb (x =? id)) _ N) as Nw.
  destruct o; unfold done; cbn [op_of astep fst new_order]; rewrite ?known_in; unfold drop.
  - reflexivity.
  - unfold ids. apply map_app.
  - apply ids_without.
  - apply ids_tl.
  - apply ids_removelast.
  - unfold has. destruct (lookup id l) as [x|]; [|reflexivity]. cbn [fst]. change (ids ((id, x) :: without id l)) with (id :: ids (without id l)). rewrite ids_without. reflexivity.
  - unfold has. destruct (lookup id l) as [x|]; [|reflexivity]. cbn [fst]. unfold ids at 1. rewrite map_app. change (map fst (without id l)) with (ids (without id l)). rewrite ids_without. reflexivity.
  - change (has id l) with (match lookup id l with Some _ => true | None => false end). destruct (lookup id l) as [x|]; [|reflexivity]. cbn [andb]. destruct (has next_items_id l), (id =? next_items_id); cbn [andb orb negb fst]; try reflexivity.
    rewrite ids_before; rewrite ids_without; [reflexivity|apply Nw].
  - change (has id l) with (match lookup id l with Some _ => true | None => false end). destruct (lookup id l) as [x|]; [|reflexivity]. cbn [andb]. destruct (has prev_items_id l), (id =? prev_items_id); cbn [andb orb negb fst]; try reflexivity.
    rewrite ids_after; rewrite ids_without; [reflexivity|apply Nw].
Qed.

Lemma perm_lookup l l' id : NoDup (ids l) -> Permutation l l' -> lookup id l' = lookup id l.
Proof.
  intros N P. assert (N' : NoDup (ids l')) by (eapply Permutation_NoDup; [apply Permutation_map, P|exact N]).
  destruct (lookup id l) as [v|] eqn:E.
  - apply lookup_iff; [exact N'|]. eapply Permutation_in; [exact P|]. apply lookup_iff; [exact N|exact E].
  - destruct (lookup id l') as [v|] eqn:E'; [|reflexivity]. apply lookup_iff in E'; [|exact N']. apply (Permutation_in _ (Permutation_sym P)) in E'. apply lookup_iff in E'; [|exact N]. congruence.
Qed.
Lemma done_kept (v : V) o l nx x : NoDup (ids l) -> ~ touched o (ids l) nx x -> lookup x (fst (done v o (l, nx))) = lookup x l.
Proof.
  intros N T. unfold touched, inserts in T. destruct o; unfold done; cbn [op_of astep fst removed] in *.
  - cbn [lookup]. destruct (Z.eqb_spec x nx); [exfalso; apply T; left; auto|reflexivity].
  - rewrite lookup_app. destruct (lookup x l); [reflexivity|]. cbn [lookup]. destruct (Z.eqb_spec x nx); [exfalso; apply T; left; auto|reflexivity].
  - rewrite lookup_without_all. destruct (Z.eqb_spec x id); [exfalso; apply T; right; auto|reflexivity].
  - destruct l as [|[k y] l]; [reflexivity|]. cbn [tl lookup]. destruct (Z.eqb_spec x k) as [->|]; [exfalso; apply T; right; exists (ids l); reflexivity|reflexivity].
  - destruct l as [|z l]; [reflexivity|]. destruct (exists_last (l := z :: l) ltac:(discriminate)) as (l1 & [k y] & E). rewrite E in *. rewrite removelast_last, lookup_app. destruct (lookup x l1); [reflexivity|]. cbn [lookup].
    destruct (Z.eqb_spec x k) as [->|]; [|reflexivity]. exfalso. apply T. right. exists (ids l1). unfold ids. rewrite map_app. reflexivity.
  - destruct (lookup id l) as [y|] eqn:E; [|reflexivity]. cbn [fst]. apply perm_lookup; [exact N|]. apply move_perm; assumption.
  - destruct (lookup id l) as [y|] eqn:E; [|reflexivity]. cbn [fst]. apply perm_lookup; [exact N|]. rewrite (move_perm id l y E N) at 1. apply Permutation_cons_append.
  - destruct (lookup id l) as [y|] eqn:E; [|reflexivity]. destruct (_ || _) eqn:C; [reflexivity|]. apply orb_false_iff in C as [C1 C2]. apply Z.eqb_neq in C1. apply negb_false_iff, has_in in C2.
    cbn [fst]. apply perm_lookup; [exact N|]. rewrite before_perm; [apply move_perm; assumption|]. apply without_in; auto.
  - destruct (lookup id l) as [y|] eqn:E; [|reflexivity]. destruct (_ || _) eqn:C; [reflexivity|]. apply orb_false_iff in C as [C1 C2]. apply Z.eqb_neq in C1. apply negb_false_iff, has_in in C2.
    cbn [fst]. apply perm_lookup; [exact N|]. rewrite after_perm; [apply move_perm; assumption|]. apply without_in; auto.
Qed.
Lemma done_inserted (v : V) o l nx : inserts o -> ~ In nx (ids l) -> lookup nx (fst (done v o (l, nx))) = Some v.
Proof.
  intros [->| ->] N; unfold done; cbn [op_of astep fst lookup]; [rewrite Z.eqb_refl; reflexivity|]. rewrite lookup_app. rewrite (proj2 (lookup_none nx l) N). cbn [lookup]. rewrite Z.eqb_refl. reflexivity.
Qed.
Lemma done_removed (v : V) o l nx x : NoDup (ids l) -> removed o (ids l) x -> lookup x (fst (done v o (l, nx))) = None.
Proof.
  intros N R. apply lookup_none. rewrite done_ids by exact N. destruct o; cbn [removed new_order] in *; try contradiction.
  - subst x. unfold drop. rewrite filter_In, Z.eqb_refl. cbn. intros [_ H]. discriminate.
  - destruct R as (m & E). rewrite E in *. inversion N; assumption.
  - destruct R as (m & E). rewrite E in *. rewrite removelast_last. apply NoDup_remove_2 in N. rewrite app_nil_r in N. exact N.
Qed.
Lemma done_next (v : V) o l nx : snd (done v o (l, nx)) = match o with LInsertFirst | LInsertLast => nx + 1 | _ => nx end.
Proof.
  destruct o; unfold done; cbn [op_of astep snd fst]; try reflexivity; (destruct (lookup id l); [|reflexivity]); try reflexivity; (destruct (_ || _); reflexivity).
Qed.
End Lists.

(** items that are shown in another way *)
Section Map.
Context {A B : Type}.
Variable g : A -> B.
Notation mp := (map (fun e : Z * A => (fst e, g (snd e)))).
Lemma mp_ids l : ids (mp l) = ids l.
Proof. unfold ids. rewrite map_map. reflexivity. Qed.
Lemma mp_without id l : without id (mp l) = mp (without id l).
Proof. unfold without. induction l as [|[k v] l IH]; [reflexivity|]. cbn [map filter fst]. destruct (k =? id); cbn [negb map]; rewrite IH; reflexivity. Qed.
Lemma mp_before k x v l : before k (x, g v) (mp l) = mp (before k (x, v) l).
Proof. induction l as [|[y w] l IH]; [reflexivity|]. cbn [map before fst snd]. destruct (y =? k); [reflexivity|]. cbn [map]. rewrite IH. reflexivity. Qed.
Lemma mp_after k x v l : after k (x, g v) (mp l) = mp (after k (x, v) l).
Proof. induction l as [|[y w] l IH]; [reflexivity|]. cbn [map after fst snd]. destruct (y =? k); [reflexivity|]. cbn [map]. rewrite IH. reflexivity. Qed.
Lemma mp_removelast l : removelast (mp l) = mp (removelast l).
Proof. induction l as [|x l IH]; [reflexivity|]. destruct l as [|y l]; [reflexivity|]. change (removelast (x :: y :: l)) with (x :: removelast (y :: l)). cbn [map] in *. rewrite <- IH. reflexivity. Qed.
Lemma mp_has id l : has id (mp l) = has id l.
Proof. unfold has. rewrite (lookup_map g). destruct (lookup id l); reflexivity. Qed.
Lemma mp_done v o l nx : done (g v) o (mp l, nx) = (mp (fst (done v o (l, nx))), snd (done v o (l, nx))).
Proof.
  destruct o; unfold done; cbn [op_of astep fst snd].
  - reflexivity.
  - rewrite map_app. reflexivity.
  - rewrite mp_without. reflexivity.
  - destruct l; reflexivity.
  - rewrite mp_removelast. reflexivity.
  - rewrite (lookup_map g). destruct (lookup id l); cbn [option_map fst snd]; [|reflexivity]. rewrite mp_without. reflexivity.
  - rewrite (lookup_map g). destruct (lookup id l); cbn [option_map fst snd]; [|reflexivity]. rewrite mp_without, map_app. reflexivity.
  - rewrite (lookup_map g), mp_has. destruct (lookup id l); cbn [option_map fst snd]; [|reflexivity]. destruct (_ || _); [reflexivity|]. cbn [fst snd]. rewrite mp_without, mp_before. reflexivity.
  - rewrite (lookup_map g), mp_has. destruct (lookup id l); cbn [option_map fst snd]; [|reflexivity]. destruct (_ || _); [reflexivity|]. cbn [fst snd]. rewrite mp_without, mp_after. reflexivity.
Qed.
End Map.

(** the call itself *)
Lemma list_do_done {L} (l : list (Z * item L)) nx o : fits_insert o (l, nx) -> list_do (l, nx) o = Ok (done (Item [] []) o (l, nx), answered o (ids l)).
Proof.
  unfold fits_insert, list_do, answered, done. cbn [fst snd]. rewrite ?known_in. intros F.
  assert (G : inserts o -> (nx + 1 <? 2 ^ 64) && negb (has nx l) && (zlen l + 1 <? 2 ^ 62) = true).
  { intros I. destruct (F I) as (F1 & F2 & F3). rewrite (proj2 (Z.ltb_lt _ _) F2), (proj2 (Z.ltb_lt _ _) F3). destruct (has nx l) eqn:E; [apply has_in in E; contradiction|reflexivity]. }
  destruct o; cbn [op_of].
  - rewrite G by (left; reflexivity). reflexivity.
  - rewrite G by (right; reflexivity). reflexivity.
  - cbn [astep fst snd]. rewrite known_in; reflexivity.
  - cbn [astep fst snd]. destruct l; reflexivity.
  - cbn [astep fst snd]. destruct l; reflexivity.
  - cbn [astep]. rewrite known_in. unfold has. destruct (lookup id l); reflexivity.
  - cbn [astep]. rewrite known_in. unfold has. destruct (lookup id l); reflexivity.
  - cbn [astep]. rewrite ?known_in. change (has id l) with (match lookup id l with Some _ => true | None => false end). destruct (lookup id l); [|reflexivity]. destruct (has next_items_id l), (id =? next_items_id); reflexivity.
  - cbn [astep]. rewrite ?known_in. change (has id l) with (match lookup id l with Some _ => true | None => false end). destruct (lookup id l); [|reflexivity]. destruct (has prev_items_id l), (id =? prev_items_id); reflexivity.
Qed.
