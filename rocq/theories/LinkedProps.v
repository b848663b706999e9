(** C08-C13: mutable lists. *)
From Coq Require Import Sorted.
From Verif Require Import Base LinkedModel LinkedSpec LinkedProofs5 LinkedProofs4.

(** A program used in the cases below: three insertions, a move, an edit, a copy,
    work on the copy. *)
Definition demo : list (list Z * wop Z) :=
  [([], WNew); ([10], WOp 0 (InsertLast 100)); ([20], WOp 0 (InsertLast 200)); ([30], WOp 0 (InsertFirst 300));
   ([99], WOp 0 (MoveToPrev 0 1)); ([99], WOp 0 (SetItem 2 333));
   ([40; 50; 60], WClone 0); ([99], WOp 1 (Remove 0)); ([70], WOp 1 (InsertLast 400)); ([99], WOp 0 RemoveFirst)].

Definition result {A B C} (r : res (A * B * C)) (d : C) : C := match r with Ok (_, c) => c | _ => d end.

Example demo_runs : result (wrun no_heap [] demo) [] =
  [RUnit; RId 0; RId 1; RId 2; RBool true; RBool true; RUnit; RBool true; RId 3; RBool true].
Proof. vm_compute. reflexivity. Qed.

(** ** C08 *)

(** Whatever a program does with any number of lists on one heap, no step goes
    wrong (no dangling or null access), every step returns what the ordered list
    returns, and every observation of every list shows the ordered list. *)
Theorem C08_list_refines : forall (V : Type) (prog : list (list Z * wop V)), prog_ok [] (map snd prog) ->
  match wrun no_heap [] prog with
  | Ok (h, ms, rets) => exists ss, awrun [] (map snd prog) = Some (ss, rets) /\ Forall2 (shows_opt h) ms ss
  | Err => True
  | Panic => False
  end.
Proof. exact @run_shows. Qed.
Print Assumptions C08_list_refines.

(** [Err] only stands for an impossible allocator: every program over existing
    lists runs to its end for some choice of addresses. *)
Theorem C08_runs : forall (V : Type) (ops : list (wop V)) out, prog_ok [] ops -> awrun [] ops = Some out ->
  exists prog r, map snd prog = ops /\ wrun no_heap [] prog = Ok r.
Proof. exact @run_exists. Qed.
Print Assumptions C08_runs.

(** Programs of the public interface are safe as long as they are shorter than
    2^64 steps. *)
Theorem C08_public_safe : forall (V : Type) (ops : list (wop V)), Forall public_w ops -> zlen ops < 2 ^ 64 ->
  prog_ok [] ops.
Proof.
  exact (fun V ops Hp Hl => public_prog_ok ops [] 0 Hp
    (fun i s H => match i return nth_error (@nil (option (astate (V := V)))) i = Some (Some s) -> _ with
                  | O => fun H => match H with eq_refl => I end | S _ => fun H => match H with eq_refl => I end end H)
    (Z.le_refl 0) Hl).
Qed.
Print Assumptions C08_public_safe.

Example demo_public : Forall public_w (map snd demo).
Proof. repeat constructor. Qed.

(** The hazard the condition excludes: an id is taken by hand, the counter reaches
    it, the next insertion frees a node that is still linked, and iterating
    touches freed memory. *)
Theorem C08_id_collision_refuted : exists prog : list (list Z * wop Z),
  match wrun no_heap [] prog with
  | Ok (h, [Some m], _) => collect_fwd h m (iter m) = Panic
  | _ => False
  end.
Proof.
  exists [([], WNew); ([10], WOp 0 (InsertLastWithId 0 100)); ([20], WOp 0 (InsertLast 200))].
  vm_compute. reflexivity.
Qed.
Print Assumptions C08_id_collision_refuted.

(** ** C09 *)

(** Following a list through insertions, removals, moves, edits and copies, the
    ids handed out strictly increase, if no copy is taken of a list that has been
    used and is empty. *)
Theorem C09_ids_increase_partial : forall (V : Type) (prog : list (list Z * (lop V + unit))) h m rets,
  Forall lin_public (map snd prog) -> no_empty_copy ([], 0) (map snd prog) -> zlen prog < 2 ^ 64 ->
  lin_run no_heap lnew prog = Ok (h, m, rets) -> StronglySorted Z.lt (inserted rets).
Proof. exact @lin_sorted. Qed.
Print Assumptions C09_ids_increase_partial.

(** Without that condition ids are reused: insert, remove, copy, insert. *)
Theorem C09_ids_refuted : exists (prog : list (list Z * (lop Z + unit))) h m rets,
  Forall lin_public (map snd prog) /\ lin_run no_heap lnew prog = Ok (h, m, rets) /\ ~ NoDup (inserted rets).
Proof.
  exists [([10], inl (InsertLast 100)); ([11], inl (Remove 0)); ([], inr tt); ([12], inl (InsertLast 200))].
  do 3 eexists. split; [repeat constructor|]. split; [reflexivity|].
  cbn [inserted]. intros H. apply NoDup_cons_iff in H as [H _]. apply H. now left.
Qed.
Print Assumptions C09_ids_refuted.

(** the same list without the emptying keeps counting *)
Example C09_case :
  let prog := [([10], inl (InsertLast 100)); ([11], inl (InsertLast 150)); ([12], inl (Remove 1)); ([13], inr tt);
               ([14], inl (InsertLast 200))] in
  no_empty_copy ([], 0) (map snd prog) /\
  match lin_run no_heap lnew prog with Ok (_, _, rets) => inserted rets = [0; 1; 2] | _ => False end.
Proof. cbv zeta. split; [cbn; intuition discriminate|vm_compute; reflexivity]. Qed.

(** ** C10 *)

Theorem C10_moves : forall (V : Type) h m (l : list (Z * V)) n a o id,
  reachable h m l n -> addresses_ok h [a] = true -> move_of o = Some id ->
  exists h' m' l' r, lstep a h m o = Ok (h', m', RBool r) /\ shows h' m' l' n /\
    if r then possible o l /\ moved id l l' /\ placed o l' else ~ possible o l /\ l' = l.
Proof. exact @move_ok. Qed.
Print Assumptions C10_moves.

Example C10_case :
  match wrun no_heap [] (firstn 4 demo) with
  | Ok (h, [Some m], _) =>
      collect_fwd h m (iter m) = Ok [(2, 300); (0, 100); (1, 200)] /\
      match lstep 99 h m (MoveToPrev 0 1) with
      | Ok (h, m, r) => r = RBool true /\ collect_fwd h m (iter m) = Ok [(2, 300); (1, 200); (0, 100)]
      | _ => False
      end /\
      match lstep 99 h m (MoveToNext 1 1) with
      | Ok (h, m, r) => r = RBool false /\ collect_fwd h m (iter m) = Ok [(2, 300); (0, 100); (1, 200)]
      | _ => False
      end
  | _ => False
  end.
Proof. vm_compute. auto. Qed.

(** ** C11 *)

Theorem C11_remove : forall (V : Type) h m (l : list (Z * V)) n a id,
  reachable h m l n -> addresses_ok h [a] = true ->
  exists h' m' l' r, lstep a h m (Remove id) = Ok (h', m', RBool r) /\ shows h' m' l' n /\
    if r then exists p v q, l = p ++ (id, v) :: q /\ l' = p ++ q else ~ In id (ids l) /\ l' = l.
Proof. exact @remove_ok. Qed.
Print Assumptions C11_remove.

Theorem C11_remove_first : forall (V : Type) h m (l : list (Z * V)) n a,
  reachable h m l n -> addresses_ok h [a] = true ->
  exists h' m' l' r, lstep a h m RemoveFirst = Ok (h', m', RBool r) /\ shows h' m' l' n /\
    if r then exists x, l = x :: l' else l = [] /\ l' = [].
Proof. exact @remove_first_ok. Qed.
Print Assumptions C11_remove_first.

Theorem C11_remove_last : forall (V : Type) h m (l : list (Z * V)) n a,
  reachable h m l n -> addresses_ok h [a] = true ->
  exists h' m' l' r, lstep a h m RemoveLast = Ok (h', m', RBool r) /\ shows h' m' l' n /\
    if r then exists x, l = l' ++ [x] else l = [] /\ l' = [].
Proof. exact @remove_last_ok. Qed.
Print Assumptions C11_remove_last.

Example C11_case :
  match wrun no_heap [] (firstn 4 demo) with
  | Ok (h, [Some m], _) =>
      match lstep 99 h m (Remove 0), lstep 99 h m RemoveLast, lstep 99 h m (Remove 7) with
      | Ok (h1, m1, r1), Ok (h2, m2, r2), Ok (h3, m3, r3) =>
          (r1, r2, r3) = (RBool true, RBool true, RBool false) /\
          collect_fwd h1 m1 (iter m1) = Ok [(2, 300); (1, 200)] /\
          collect_fwd h2 m2 (iter m2) = Ok [(2, 300); (0, 100)] /\
          collect_bwd h3 m3 (iter_from_last m3) = Ok [(1, 200); (0, 100); (2, 300)]
      | _, _, _ => False
      end
  | _ => False
  end.
Proof. vm_compute. auto. Qed.

(** ** C12 *)

(** the cursor of linked_map_unsafe_iter.rs, on which all others are built *)
Theorem C12_cursor : forall (V : Type) h m (l : list (Z * V)) n, reachable h m l n ->
  points h m (iter m) (hd_error l) /\ points h m (iter_from_last m) (hd_error (rev l)) /\
  forall l1 id v l2, l = l1 ++ (id, v) :: l2 ->
  exists c cn cp, iter_from_id m id = Some c /\ points h m c (Some (id, v)) /\
    cur_next h m c = Ok (Some (id, v), cn) /\ points h m cn (hd_error l2) /\
    cur_prev h m c = Ok (Some (id, v), cp) /\ points h m cp (hd_error (rev l1)) /\
    (l2 <> [] -> exists x, cur_prev h m cn = Ok (x, c)) /\
    (l1 <> [] -> exists x, cur_next h m cp = Ok (x, c)) /\
    cur_is_first h m c = Ok (nil_b l1) /\ cur_is_last h m c = Ok (nil_b l2).
Proof. exact @cursor_ok. Qed.
Print Assumptions C12_cursor.

Lemma demo4_reachable : match wrun no_heap [] (firstn 4 demo) with
  | Ok (h, [Some m], _) => reachable h m [(2, 300); (0, 100); (1, 200)] 3
  | _ => False
  end.
Proof.
  pose proof (run_shows (firstn 4 demo)) as H.
  assert (Hok : prog_ok [] (map snd (firstn 4 demo))).
  { apply C08_public_safe; [repeat constructor|vm_compute; reflexivity]. }
  destruct (wrun no_heap [] (firstn 4 demo)) as [[[h ms] rets]| |] eqn:E; [|vm_compute in E; discriminate|exact (H Hok)].
  specialize (H Hok). destruct H as (ss & Ea & Hss).
  assert (Ess : ss = [Some ([(2, 300); (0, 100); (1, 200)], 3)]).
  { vm_compute in Ea. now injection Ea as <- _. }
  subst ss. inversion Hss as [|m s ms0 s0 Hm Hnil]; subst. inversion Hnil; subst. destruct m as [m|]; [|contradiction].
  exists (firstn 4 demo), [Some m], rets, [Some ([(2, 300); (0, 100); (1, 200)], 3)], rets, O.
  split; [exact Hok|]. split; [exact E|]. split; [exact Ea|]. split; reflexivity.
Qed.

(** [is_last] of the safe list cursors: on the first of three items it says true,
    on the last it says false. *)
Theorem C12_is_last_refuted : exists h m (l : list (Z * Z)) n c x, reachable h m l n /\
  points h m c (hd_error l) /\ length l = 3%nat /\ safe_is_last h m c = Ok true /\
  points h m x (hd_error (rev l)) /\ safe_is_last h m x = Ok false.
Proof.
  pose proof demo4_reachable as H.
  destruct (wrun no_heap [] (firstn 4 demo)) as [[[h ms] rets]| |] eqn:E; try contradiction.
  destruct ms as [|[m|] [|]]; try contradiction.
  exists h, m, [(2, 300); (0, 100); (1, 200)], 3, (iter m), (iter_from_last m). split; [exact H|].
  pose proof (C12_cursor _ _ _ _ _ H) as (H1 & H2 & _).
  split; [exact H1|]. split; [reflexivity|]. split; [|split; [exact H2|]].
  - vm_compute in E. apply Ok_inj in E. injection E as <- <- _. vm_compute. reflexivity.
  - vm_compute in E. apply Ok_inj in E. injection E as <- <- _. vm_compute. reflexivity.
Qed.
Print Assumptions C12_is_last_refuted.

(** [prev] of the mutable list cursor goes forward. *)
Theorem C12_mut_prev_refuted : exists h m (l : list (Z * Z)) n c c' id v, reachable h m l n /\
  points h m c (hd_error l) /\ mlist_mut_prev h m c = Ok (Some (id, v), c') /\ points h m c' (hd_error (tl l)) /\ tl l <> [].
Proof.
  pose proof demo4_reachable as H.
  destruct (wrun no_heap [] (firstn 4 demo)) as [[[h ms] rets]| |] eqn:E; try contradiction.
  destruct ms as [|[m|] [|]]; try contradiction.
  pose proof (C12_cursor _ _ _ _ _ H) as (H1 & H2 & H3).
  destruct (H3 [] 2 300 [(0, 100); (1, 200)] eq_refl) as (c & cn & cp & Ec & Pc & En & Pn & _).
  exists h, m, [(2, 300); (0, 100); (1, 200)], 3, c, cn, 2, 300.
  split; [exact H|]. split; [exact Pc|]. split; [exact En|]. split; [exact Pn|discriminate].
Qed.
Print Assumptions C12_mut_prev_refuted.

(** ** C13 *)

Theorem C13_copy : forall (V : Type) (eqv : V -> V -> bool) h m (l : list (Z * V)) n al,
  reachable h m l n -> addresses_ok h al = true -> zlen al = zlen l -> (forall v, eqv v v = true) ->
  exists h' m', clone al h m = Ok (h', m') /\ shows h' m' l (match l with [] => 0 | _ => n end) /\
    shows h' m l n /\ leq eqv h' m h' m' = Ok true.
Proof. exact @copy_ok. Qed.
Print Assumptions C13_copy.

(** Whatever is done to other lists, among them the copies of list [i], list [i]
    shows the same items. *)
Theorem C13_independent : forall (V : Type) p q i h ms rs h' ms' rs' m (l : list (Z * V)) n,
  prog_ok [] (map snd (p ++ q)) -> Forall (leaves i) (map snd q) ->
  wrun no_heap [] p = Ok (h, ms, rs) -> nth_error ms i = Some (Some m) -> shows h m l n ->
  wrun no_heap [] (p ++ q) = Ok (h', ms', rs') ->
  exists m', nth_error ms' i = Some (Some m') /\ shows h' m' l n.
Proof. exact @independent_ok. Qed.
Print Assumptions C13_independent.

Theorem C13_equality : forall (V : Type) (eqv : V -> V -> bool) h1 m1 (l1 : list (Z * V)) n1 h2 m2 l2 n2,
  shows h1 m1 l1 n1 -> shows h2 m2 l2 n2 ->
  exists b, leq eqv h1 m1 h2 m2 = Ok b /\
    (b = true <-> Forall2 (fun p q => fst p = fst q /\ eqv (snd p) (snd q) = true) l1 l2).
Proof. exact @leq_ok. Qed.
Print Assumptions C13_equality.

Example C13_case :
  match wrun no_heap [] (firstn 7 demo), wrun no_heap [] demo with
  | Ok (h, [Some m; Some c], _), Ok (h', [Some m'; Some c'], _) =>
      leq Z.eqb h m h c = Ok true /\ leq Z.eqb h' m' h' c' = Ok false /\
      collect_fwd h c (iter c) = Ok [(2, 333); (1, 200); (0, 100)] /\
      collect_fwd h' m' (iter m') = Ok [(1, 200); (0, 100)] /\
      collect_fwd h' c' (iter c') = Ok [(2, 333); (1, 200); (3, 400)]
  | _, _ => False
  end.
Proof. vm_compute. auto. Qed.
