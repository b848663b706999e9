(** C72: cursors that are kept while their list changes. *)
From Verif Require Import Base LinkedModel LinkedSpec LinkedProps CursorModel CursorSpec CursorProofs.

(** Whatever is done to the list in between, cursors answer as on the ordered list: each stays
    with its item, [next] and [prev] go to the item that is behind or before it now.  Undefined
    behaviour ([Panic]) does not occur as long as no cursor is used whose item was removed.  [Err]
    is an address that no allocator gives. *)
Theorem C72_cursors : forall (V : Type) h m (l : list (Z * V)) n prog,
  reachable h m l n -> careful (l, n) [] (map snd prog) ->
  match crun h m [] prog with
  | Ok (h', m', cs, answers) => exists l' n' ds, acrun (l, n) [] (map snd prog) = (l', n', ds, answers) /\
                                  shows h' m' l' n' /\ Forall2 (stays h' m' l') cs ds
  | Err => True
  | Panic => False
  end.
Proof. exact @cursors_ok. Qed.
Print Assumptions C72_cursors.

(** such runs exist for all these programs *)
Theorem C72_runs : forall (V : Type) h m (l : list (Z * V)) n ops,
  reachable h m l n -> careful (l, n) [] ops ->
  exists prog r, map snd prog = ops /\ crun h m [] prog = Ok r.
Proof. exact @cursors_run. Qed.
Print Assumptions C72_runs.

(** Going through the whole list and removing items on the way: every item is visited once, in
    order, and exactly those that were not to be removed remain, in order. *)
Theorem C72_sweep : forall (V : Type) p h m (l : list (Z * V)) n, reachable h m l n ->
  exists h' m', sweep p (S (length l)) h m (iter m) = Ok (h', m', l) /\
    shows h' m' (filter (fun x => negb (p (fst x) (snd x))) l) n.
Proof. exact @sweep_ok. Qed.
Print Assumptions C72_sweep.

Theorem C72_sweep_back : forall (V : Type) p h m (l : list (Z * V)) n, reachable h m l n ->
  exists h' m', sweep_back p (S (length l)) h m (iter_from_last m) = Ok (h', m', rev l) /\
    shows h' m' (filter (fun x => negb (p (fst x) (snd x))) l) n.
Proof. exact @sweep_back_ok. Qed.
Print Assumptions C72_sweep_back.

(** What the comment at linked_map_unsafe_iter.rs L47-49 promises: go back, remove the item the
    cursor stood on, and two times [next] gives the item that was behind it. *)
Theorem C72_back : forall (V : Type) h m (l1 l2 : list (Z * V)) x y z n c,
  reachable h m (l1 ++ x :: y :: z :: l2) n -> points h m c (Some y) ->
  exists c1 h' m' c2 c3, cur_prev h m c = Ok (Some y, c1) /\ lm_remove h m (fst y) = Ok (h', m', true) /\
    shows h' m' (l1 ++ x :: z :: l2) n /\ cur_next h' m' c1 = Ok (Some x, c2) /\ cur_next h' m' c2 = Ok (Some z, c3) /\
    points h' m' c3 (hd_error l2).
Proof. exact @back_ok. Qed.
Print Assumptions C72_back.

(** What it warns of: once its item is removed, every use of a cursor is undefined behaviour. *)
Theorem C72_removed : forall (V : Type) h m (l : list (Z * V)) n c id v,
  reachable h m l n -> points h m c (Some (id, v)) ->
  exists h' m', lm_remove h m id = Ok (h', m', true) /\ shows h' m' (without id l) n /\
    cur_next h' m' c = Panic /\ cur_prev h' m' c = Panic /\ cur_current h' c = Panic /\
    cur_is_first h' m' c = Panic /\ cur_is_last h' m' c = Panic.
Proof. exact @removed_ok. Qed.
Print Assumptions C72_removed.

(** Three cursors over the list 2, 0, 1: the item 1 is moved to the front, an item is inserted,
    the item 2 is removed after its cursors went on. *)
Definition three : list (Z * cop Z) :=
  [(0, COpen AtFirst); (0, COpen AtLast); (0, COpen (AtId 0)); (0, COpen (AtId 9));
   (0, CIsFirst 0); (50, CChange (MoveToFirst 1)); (0, CIsFirst 0); (0, CIsFirst 1);
   (0, CPrev 1); (0, CAvailable 1);
   (51, CChange (InsertLast 400)); (0, CNext 1);
   (0, CNext 0); (52, CChange (Remove 2)); (0, CNext 0); (0, CNext 0); (0, CNext 0);
   (0, CPrev 2); (0, CNext 2); (0, CNext 2); (0, CIsLast 2); (0, CCurrent 2)].

Example C72_case :
  match wrun no_heap [] (firstn 4 demo) with
  | Ok (h, [Some m], _) =>
      reachable h m [(2, 300); (0, 100); (1, 200)] 3 /\ careful ([(2, 300); (0, 100); (1, 200)], 3) [] (map snd three) /\
      match crun h m [] three with
      | Ok (h', m', _, answers) =>
          collect_fwd h' m' (iter m') = Ok [(1, 200); (0, 100); (3, 400)] /\
          answers = [AOpened true; AOpened true; AOpened true; AOpened false;
            ABool true; AChanged (RBool true); ABool false; ABool true;
            AItem (Some (1, 200)); ABool false;
            AChanged (RId 3); AItem None;
            AItem (Some (2, 300)); AChanged (RBool true); AItem (Some (0, 100)); AItem (Some (3, 400)); AItem None;
            AItem (Some (0, 100)); AItem (Some (1, 200)); AItem (Some (0, 100)); ABool true; AItem (Some (3, 400))]
      | _ => False
      end
  | _ => False
  end.
Proof.
  pose proof demo4_reachable as H. destruct (wrun no_heap [] (firstn 4 demo)) as [[[h ms] rets]| |] eqn:E; try contradiction.
  destruct ms as [|[m|] [|]]; try contradiction. split; [exact H|]. split.
  - vm_compute. repeat (split; [try exact Logic.I; try (eexists; eexists; split; reflexivity); try (split; [intros F; intuition discriminate|reflexivity])|]).
    exact Logic.I.
  - vm_compute in E. apply Ok_inj in E. injection E as <- <- _. vm_compute. split; reflexivity.
Qed.

(** All but the item with the value 100 are removed on the way; then only that one, from the end. *)
Example C72_sweep_case :
  match wrun no_heap [] (firstn 4 demo) with
  | Ok (h, [Some m], _) =>
      match sweep (fun id v => negb (v =? 100)) 4 h m (iter m), sweep_back (fun id v => v =? 100) 4 h m (iter_from_last m) with
      | Ok (h1, m1, seen1), Ok (h2, m2, seen2) =>
          seen1 = [(2, 300); (0, 100); (1, 200)] /\ collect_fwd h1 m1 (iter m1) = Ok [(0, 100)] /\
          seen2 = [(1, 200); (0, 100); (2, 300)] /\ collect_fwd h2 m2 (iter m2) = Ok [(2, 300); (1, 200)]
      | _, _ => False
      end
  | _ => False
  end.
Proof. vm_compute. auto. Qed.

(** A cursor whose item was removed, when the allocator gives the address to a new item: the
    cursor is on the new item.  Such a program is not [careful]. *)
Example C72_reused :
  match wrun no_heap [] (firstn 4 demo) with
  | Ok (h, [Some m], _) =>
      let a := iter m in
      match crun h m [] [(0, COpen AtFirst); (50, CChange (Remove 2)); (a, CChange (InsertLast 400)); (0, CCurrent 0)] with
      | Ok (_, _, _, answers) => nth_error answers 3 = Some (AItem (Some (3, 400)))
      | _ => False
      end
  | _ => False
  end.
Proof. vm_compute. reflexivity. Qed.
