(** Property C60: copies of a document that share memory are independent. *)
From Verif Require Import Base CompactionModel StringCompactionModel LinkedModel LinkedSpec LinkedProofs DocModel DiffModel DiffWireModel DiffSpec DiffEditSpec DiffProofs DiffSamples
  JsonModel ValidModel IntfModel IntfProofs ArcModel ArcSpec ArcProofs ArcProofs6.

(* ------------------------------------------------------------------ *)
(** * A sample: one document without values *)

(** one past the greatest address in use *)
Definition next_alloc (t : Z) (cs : list (Z * (Z * cell))) : Z := 1 + fold_right Z.max 0 (map fst cs).
Lemma next_fresh : fresh_alloc next_alloc.
Proof.
  intros t cs. unfold next_alloc. destruct (lookup (1 + fold_right Z.max 0 (map fst cs)) cs) eqn:E; [|reflexivity]. exfalso.
  apply lookup_in', (in_map fst) in E. cbn [fst] in E. revert E.
  assert (H : forall l x, In x l -> x <= fold_right Z.max 0 l).
  { induction l as [|y l IH]; cbn [In fold_right]; [tauto|]. intros x [->|Hx]; [lia|]. specialize (IH x Hx). lia. }
  intros E. apply H in E. lia.
Qed.

(** the text of the default of "s", and the values of the document *)
Definition heap0 : heap := Heap [(1, (1, CText [104])); (2, (1, CVals []))] 2.
Definition state0 : heap * list (option Z) := (heap0, [Some 2]).
Definition env0 : list (option (sabun 2)) := [Some []].

Lemma good0 : good a_def [1] state0 env0.
Proof.
  split; [|split].
  - split; [nodup|]. split; [|split].
    + intros a c v H. cbn in H. destruct (a =? 1); [inversion H; lia|]. destruct (a =? 2); inversion H; lia.
    + intros x. destruct (Z.eq_dec x 1) as [->|N1]; [reflexivity|]. destruct (Z.eq_dec x 2) as [->|N2]; [reflexivity|].
      unfold count. cbn [state0 fst snd heap0 cells lookup inside children occ live flat_map app].
      apply Z.eqb_neq in N1, N2. rewrite (Z.eqb_sym 1 x), (Z.eqb_sym 2 x), N1, N2. reflexivity.
    + exists (fun _ => O). intros a v x E Hx. unfold content in E. cbn [state0 fst heap0 cells lookup] in E.
      destruct (a =? 1); [apply Some_inj in E; subst v; destruct Hx|]. destruct (a =? 2); [apply Some_inj in E; subst v; destruct Hx|discriminate].
  - split.
    + intros key id p vt H. each H; (split; [repeat constructor|intros x Hx; first [exact Hx|destruct Hx]]).
    + intros key id d u H. each H. split.
      * intros k i p vt H. each H. split; [constructor|intros ? []].
      * intros k i d' u' H. each H. split; [|intros k2 i2 d2 u2 H; each H].
        intros k2 i2 p vt H. each H. split; [constructor|intros ? []].
  - constructor; [|constructor]. exists []. split; [reflexivity|constructor].
Qed.

(* ------------------------------------------------------------------ *)
(** ** C60  Copies of a document share memory and are independent all the same

    Whatever a program does with documents of one source, their copies and their items, no
    memory is used after it was released, counts stay right, and the documents are at every
    step what they would be if copies shared nothing.  The one thing that differs is the next
    id of lists without items, see [C60_next_refuted]. *)
Theorem C60_copies_partial : forall n (def : rootdef n) held alloc, fresh_alloc alloc ->
  forall ops h docs env, good def held (h, docs) env ->
  exists r, runs def env ops r /\
    match r with
    | Ok env' => exists x', docs_run alloc def (h, docs) ops = Ok x' /\ good def held x' env'
    | Err => docs_run alloc def (h, docs) ops = Err
    | Panic => docs_run alloc def (h, docs) ops = Panic
    end.
Proof. intros n def held alloc F. exact (docs_run_spec def held alloc F). Qed.
Print Assumptions C60_copies_partial.

(** A document changes only by calls with it, or goes when it is dropped. *)
Theorem C60_untouched : forall n (def : rootdef n) held alloc, fresh_alloc alloc ->
  forall ops h docs env x' i s, good def held (h, docs) env -> docs_run alloc def (h, docs) ops = Ok x' ->
  nth_error env i = Some (Some s) -> forallb (fun o => negb (changes i o)) ops = true ->
  exists a, nth_error (snd x') i = Some (Some a) /\ root_at n (fst x') a s.
Proof. intros n def held alloc F. exact (untouched def held alloc F). Qed.
Print Assumptions C60_untouched.

(** What is in memory belongs to a document that is there or to the definition: nothing stays
    when the documents it belonged to are gone. *)
Theorem C60_released : forall n (def : rootdef n) held h docs env, good def held (h, docs) env ->
  forall a v, content h a = Some v -> exists x, (In (Some x) docs \/ In x held) /\ leads h x a.
Proof.
  intros n def held h docs env (C & _) a v E. destruct (counted_leads _ _ C a v E) as (x & Hx & L). exists x. split; [|exact L].
  apply in_app_or in Hx as [Hx|Hx]; [left|right; exact Hx]. unfold live in Hx. apply in_flat_map in Hx as ([y|] & Hy & Hz); [|destruct Hz].
  destruct Hz as [->|[]]. exact Hy.
Qed.
Print Assumptions C60_released.

(** Documents of one program are about one memory: this is the [mem] of C14 and C59. *)
Theorem C60_memory : forall n (def : rootdef n) held h docs env, good def held (h, docs) env ->
  exists mem, forall i s, nth_error env i = Some (Some s) -> forall mem', typed_root mem' s def -> typed_root mem s def.
Proof.
  intros n def held h docs env (_ & _ & F). exists (mem_of h). intros i s E mem' T. cbn [fst snd] in F.
  clear - F E T. revert i E. induction F as [|o x docs env R F IH]; intros [|i] E; try discriminate; cbn [nth_error] in E; [|eapply IH; eassumption].
  apply Some_inj in E. subst x. destruct o as [a|]; [|destruct R]. eapply root_typed; eassumption.
Qed.
Print Assumptions C60_memory.

(** Documents at one address are one document (structs/root_obj.rs L116-118 contents_ptr_eq). *)
Theorem C60_ptr_eq : forall n h a b (s s' : sabun n), root_at n h a s -> root_at n h b s' -> contents_ptr_eq a b = true -> s = s'.
Proof. intros n h a b s s' R R' E. apply Z.eqb_eq in E. subst b. exact (root_fun n h a s s' R R'). Qed.
Print Assumptions C60_ptr_eq.

(** [contents_eq] is right when it says that documents are equal, up to the order of items
    and the next ids. *)
Theorem C60_eq : forall n h a b (s s' : sabun n) def, root_at n h a s -> root_at n h b s' ->
  typed_root (mem_of h) s def -> typed_root (mem_of h) s' def -> plain_root s -> plain_root s' ->
  contents_eq n h a b = true -> same_root false false s s'.
Proof. intros n h a b s s' def R R' T T' P P' E. exact (contents_eq_same h n a b s s' def def R R' T T' P P' E). Qed.
Print Assumptions C60_eq.

(* ------------------------------------------------------------------ *)
(** * Examples *)

Definition ins : root_step := OInto [108] (OnList LInsertLast).
Definition rem : root_step := OInto [108] (OnList LRemoveFirst).
Definition set_v (id v : Z) : root_step := OInto [108] (OnItem id (ISet [118] (PInt (Val v)))).
Definition write_s (t : list Z) : root_step := OWrite [115] TString 0 t.

Ltac at_root := eexists; split; [vm_compute; reflexivity|]; repeat first [apply Forall2_nil|apply Forall2_cons; [split; [reflexivity|]|]].

(** A document with an item, a copy of it, changes of both: the item of the original keeps
    its 5 and its text, the copy has 6 and a text of its own. *)
Definition both : list doc_op :=
  [DEdit 0 ins; DEdit 0 (set_v 0 5); DEdit 0 (write_s [111]); DCopy 0; DEdit 1 (set_v 0 6); DEdit 1 (write_s [122]); DEdit 1 ins].
Definition of_run (ops : list doc_op) : heap * list (option Z) :=
  match docs_run next_alloc a_def state0 ops with Ok x => x | _ => state0 end.

Example both_good : exists env, runs a_def env0 both (Ok env) /\ good a_def [1] (of_run both) env.
Proof.
  destruct (C60_copies_partial 2 a_def [1] next_alloc next_fresh both heap0 [Some 2] env0 good0) as (r & R & A).
  destruct r as [env| |]; [|vm_compute in A; discriminate A ..]. destruct A as (x & E & G). exists env. split; [exact R|].
  unfold of_run, state0. rewrite E. exact G.
Qed.
Example both_first : root_at 2 (fst (of_run both)) 2
  [([108], RMut (Some ([(0, Item [([118], LParam (PInt (Val 5)))] [])], 1))); ([115], RParam (PString (Val (6, [111]))))].
Proof.
  at_root.
  - split; [nodup|]. at_root. split; [|vm_compute; reflexivity]. at_root. split; [reflexivity|constructor].
  - split; [reflexivity|]. repeat constructor.
Qed.
Example both_second : root_at 2 (fst (of_run both)) 7
  [([108], RMut (Some ([(0, Item [([118], LParam (PInt (Val 6)))] []); (1, Item [] [])], 2))); ([115], RParam (PString (Val (10, [122]))))].
Proof.
  at_root.
  - split; [nodup|]. at_root.
    + split; [|vm_compute; reflexivity]. at_root. split; [reflexivity|constructor].
    + split; [|vm_compute; reflexivity]. at_root.
  - split; [reflexivity|]. repeat constructor.
Qed.
(** and what both used is given back with them *)
Example both_dropped : of_run (both ++ [DDrop 0; DDrop 1]) = (Heap [(1, (1, CText [104]))] 12, [None; None]).
Proof. vm_compute. reflexivity. Qed.
(** the original is the same in all of what happens to the copy *)
Example both_untouched : exists a, nth_error (snd (of_run both)) 0 = Some (Some a) /\
  root_at 2 (fst (of_run both)) a [([108], RMut (Some ([(0, Item [([118], LParam (PInt (Val 5)))] [])], 1))); ([115], RParam (PString (Val (6, [111]))))].
Proof. exists 2. split; [reflexivity|exact both_first]. Qed.

(* ------------------------------------------------------------------ *)
(** * What copies change *)

(** Taking a copy is visible to the original: the item that is inserted into its list has the
    id 1 without the copy and the id 0 with it (structs/linked_m.rs L389-406). *)
Theorem C60_next_refuted : exists alloc (def : rootdef 2) held h docs env x y a b s s' (l l' : mlistT 2),
  fresh_alloc alloc /\ good def held (h, docs) env /\
  docs_run alloc def (h, docs) [DEdit 0 ins; DEdit 0 rem; DEdit 0 ins] = Ok x /\
  docs_run alloc def (h, docs) [DEdit 0 ins; DEdit 0 rem; DCopy 0; DEdit 0 ins] = Ok y /\
  nth_error (snd x) 0 = Some (Some a) /\ root_at 2 (fst x) a s /\ hget [108] s = Some (RMut (Some l)) /\ ids (fst l) = [1] /\
  nth_error (snd y) 0 = Some (Some b) /\ root_at 2 (fst y) b s' /\ hget [108] s' = Some (RMut (Some l')) /\ ids (fst l') = [0].
Proof.
  exists next_alloc, a_def, [1], heap0, [Some 2], env0.
  exists (of_run [DEdit 0 ins; DEdit 0 rem; DEdit 0 ins]), (of_run [DEdit 0 ins; DEdit 0 rem; DCopy 0; DEdit 0 ins]), 2, 4.
  exists [([108], RMut (Some ([(1, Item [] [])], 2)))], [([108], RMut (Some ([(0, Item [] [])], 1)))], ([(1, Item [] [])], 2), ([(0, Item [] [])], 1).
  split; [exact next_fresh|]. split; [exact good0|]. split; [vm_compute; reflexivity|]. split; [vm_compute; reflexivity|].
  split; [vm_compute; reflexivity|]. split; [at_root; split; [nodup|]; at_root; split; [at_root|vm_compute; reflexivity]|].
  split; [reflexivity|]. split; [reflexivity|].
  split; [vm_compute; reflexivity|]. split; [at_root; split; [nodup|]; at_root; split; [at_root|vm_compute; reflexivity]|].
  split; reflexivity.
Qed.
Print Assumptions C60_next_refuted.

(** the values of a document *)
Definition root_values (h : heap) (docs : list (option Z)) (i : nat) : option (hmap (lval Z)) :=
  match nth_error docs i with
  | Some (Some a) => match content h a with Some (CVals m) => Some m | _ => None end
  | _ => None
  end.

(** An item that was got before the copy was made and is used afterwards writes into both
    (see [kept_do]): the copy changes although nothing was called with it. *)
Theorem C60_kept_refuted : exists alloc (def : rootdef 2) held x y env (d : ldef (defT 1)) p h' s s',
  fresh_alloc alloc /\ good def held x env /\
  (exists v, root_values (fst x) (snd x) 0 = Some v /\ hget [108] v = Some (LMil (Some p))) /\
  docs_step alloc def x (DCopy 0) = Ok y /\ nth_error (snd y) 1 = Some (Some 2) /\ root_at 2 (fst y) 2 s /\
  kept_do alloc 1 d (fst y) p 0 (ISet [118] (PInt (Val 6))) = Ok (h', true) /\ root_at 2 h' 2 s' /\
  s = [([108], RMut (Some ([(0, Item [([118], LParam (PInt (Val 5)))] [])], 1)))] /\
  s' = [([108], RMut (Some ([(0, Item [([118], LParam (PInt (Val 6)))] [])], 1)))].
Proof.
  destruct (C60_copies_partial 2 a_def [1] next_alloc next_fresh [DEdit 0 ins; DEdit 0 (set_v 0 5)] heap0 [Some 2] env0 good0) as (r & R & A).
  destruct r as [env| |]; [|vm_compute in A; discriminate A ..]. destruct A as (x & E & G).
  assert (Ex : x = of_run [DEdit 0 ins; DEdit 0 (set_v 0 5)]) by (unfold of_run, state0; rewrite E; reflexivity). rewrite Ex in G. clear Ex E R x.
  exists next_alloc, a_def, [1], (of_run [DEdit 0 ins; DEdit 0 (set_v 0 5)]), (of_run [DEdit 0 ins; DEdit 0 (set_v 0 5); DCopy 0]), env, it_def, 3.
  eexists. eexists. eexists. split; [exact next_fresh|]. split; [exact G|].
  split; [eexists; split; vm_compute; reflexivity|]. split; [vm_compute; reflexivity|]. split; [vm_compute; reflexivity|].
  split; [|split; [vm_compute; reflexivity|split; [|split; reflexivity]]].
  - at_root. split; [nodup|]. at_root. split; [at_root; split; [reflexivity|constructor]|vm_compute; reflexivity].
  - at_root. split; [nodup|]. at_root. split; [at_root; split; [reflexivity|constructor]|vm_compute; reflexivity].
Qed.
Print Assumptions C60_kept_refuted.

(** Equal documents are not found equal if their texts were written one by one, and documents
    with items in another order are found equal. *)
Definition twice : list doc_op := [DCopy 0; DEdit 0 (write_s [122]); DEdit 1 (write_s [122])].
Definition turned : list doc_op := [DEdit 0 ins; DEdit 0 ins; DCopy 0; DEdit 1 (OInto [108] (OnList (LMoveToFirst 1)))].
Theorem C60_eq_refuted :
  (exists alloc (def : rootdef 2) held x env a b s s', fresh_alloc alloc /\ good def held x env /\
     snd x = [Some a; Some b] /\ root_at 2 (fst x) a s /\ root_at 2 (fst x) b s' /\
     typed_root (mem_of (fst x)) s def /\ typed_root (mem_of (fst x)) s' def /\ same_root true true s s' /\
     contents_eq 2 (fst x) a b = false) /\
  (exists alloc (def : rootdef 2) held x env a b s s' (l l' : mlistT 2), fresh_alloc alloc /\ good def held x env /\
     snd x = [Some a; Some b] /\ root_at 2 (fst x) a s /\ root_at 2 (fst x) b s' /\
     hget [108] s = Some (RMut (Some l)) /\ hget [108] s' = Some (RMut (Some l')) /\ ids (fst l) = [0; 1] /\ ids (fst l') = [1; 0] /\
     contents_eq 2 (fst x) a b = true).
Proof.
  split.
  - destruct (C60_copies_partial 2 a_def [1] next_alloc next_fresh twice heap0 [Some 2] env0 good0) as (r & R & A).
    destruct r as [env| |]; [|vm_compute in A; discriminate A ..]. destruct A as (x & E & G).
    assert (Ex : x = of_run twice) by (unfold of_run, state0; rewrite E; reflexivity). rewrite Ex in G. clear Ex E R x.
    exists next_alloc, a_def, [1], (of_run twice), env, 3, 2, [([115], RParam (PString (Val (4, [122]))))], [([115], RParam (PString (Val (5, [122]))))].
    split; [exact next_fresh|]. split; [exact G|]. split; [vm_compute; reflexivity|].
    split; [at_root; split; [reflexivity|repeat constructor]|]. split; [at_root; split; [reflexivity|repeat constructor]|].
    assert (T : forall a, mem_of (fst (of_run twice)) a = [122] -> typed_root (mem_of (fst (of_run twice))) [([115], RParam (PString (Val (a, [122]))))] a_def).
    { intros a Ha. split; [nodup|]. intros key v H. each H. exists 1, (PString (Val (1, [104]))), Normal. split; [reflexivity|]. split; [reflexivity|]. split; [reflexivity|].
      split; [symmetry; exact Ha|]. text. }
    split; [apply T; vm_compute; reflexivity|]. split; [apply T; vm_compute; reflexivity|]. split; [|vm_compute; reflexivity].
    intros key. cbn [hget]. destruct (eqb_bytes [115] key); cbn; [reflexivity|exact Logic.I].
  - destruct (C60_copies_partial 2 a_def [1] next_alloc next_fresh turned heap0 [Some 2] env0 good0) as (r & R & A).
    destruct r as [env| |]; [|vm_compute in A; discriminate A ..]. destruct A as (x & E & G).
    assert (Ex : x = of_run turned) by (unfold of_run, state0; rewrite E; reflexivity). rewrite Ex in G. clear Ex E R x.
    exists next_alloc, a_def, [1], (of_run turned), env, 2, 8, [([108], RMut (Some ([(0, Item [] []); (1, Item [] [])], 2)))],
      [([108], RMut (Some ([(1, Item [] []); (0, Item [] [])], 2)))], ([(0, Item [] []); (1, Item [] [])], 2), ([(1, Item [] []); (0, Item [] [])], 2).
    split; [exact next_fresh|]. split; [exact G|]. split; [vm_compute; reflexivity|].
    split; [at_root; split; [nodup|]; at_root; (split; [at_root|vm_compute; reflexivity])|].
    split; [at_root; split; [nodup|]; at_root; (split; [at_root|vm_compute; reflexivity])|].
    split; [reflexivity|]. split; [reflexivity|]. split; [reflexivity|]. split; [reflexivity|]. vm_compute. reflexivity.
Qed.
Print Assumptions C60_eq_refuted.

(** a case of [C60_eq]: a copy whose text is shared and whose item was written anew *)
Definition anew : list doc_op := [DEdit 0 (write_s [122]); DEdit 0 ins; DEdit 0 (set_v 0 5); DCopy 0; DEdit 1 (set_v 0 6); DEdit 1 (set_v 0 5)].
Definition item_5 : item (mlistT 1) := Item [([118], LParam (PInt (Val 5)))] [].
Definition anew_doc : sabun 2 := [([115], RParam (PString (Val (3, [122])))); ([108], RMut (Some ([(0, item_5)], 1)))].
Example anew_eq : exists b, snd (of_run anew) = [Some 2; Some b] /\ b <> 2 /\
  root_at 2 (fst (of_run anew)) 2 anew_doc /\ root_at 2 (fst (of_run anew)) b anew_doc /\
  typed_root (mem_of (fst (of_run anew))) anew_doc a_def /\ plain_root anew_doc /\
  contents_ptr_eq 2 b = false /\ contents_eq 2 (fst (of_run anew)) 2 b = true.
Proof.
  exists 7. split; [vm_compute; reflexivity|]. split; [discriminate|].
  split; [at_root; [split; [reflexivity|repeat constructor]|]; (split; [nodup|]); at_root; (split; [at_root; split; [reflexivity|constructor]|vm_compute; reflexivity])|].
  split; [at_root; [split; [reflexivity|repeat constructor]|]; (split; [nodup|]); at_root; (split; [at_root; split; [reflexivity|constructor]|vm_compute; reflexivity])|].
  split; [|split; [|split; vm_compute; reflexivity]].
  - split; [nodup|]. intros key v H. unfold anew_doc in H. each H.
    + exists 1, (PString (Val (1, [104]))), Normal. split; [reflexivity|]. split; [reflexivity|]. split; [reflexivity|]. split; [vm_compute; reflexivity|]. text.
    + exists 2, it_def, false. split; [reflexivity|]. split; [nodup|]. split; [all_of|]. split; [cbn; unfold u64_range; lia|]. split; [cbn; lia|].
      split; [apply few_it|]. split; [apply few_it|]. intros id it H. item_of H.
      split; [nodup|]. split; [nodup|]. split; intros key v H; unfold item_5 in H; each H.
      exists 0, (PInt (Val 7)), Nullable. split; [reflexivity|]. split; [reflexivity|]. split; [reflexivity|]. cbn. unfold i64_range. lia.
  - intros key l H. unfold anew_doc in H. each H. intros id it H. item_of H. intros key v H. unfold item_5 in H. each H. exact Logic.I.
Qed.
