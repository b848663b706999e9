(** C52: what loaded documents guarantee to the code that changes and compares them. *)
From Coq Require Import String.
From Verif Require Import Base CompactionSpec LinkedModel LinkedSpec DocModel DiffModel DiffWireModel DiffSpec DiffEditSpec DiffProps ArchiveModel JsonModel JsonSpec JsonProofs JsonProps
  ValidModel ValidSpec ValidProofs ValidProps LoadSpec LoadProofs EmbedSpec EmbedProofs.

(* ------------------------------------------------------------------ *)
(** * Examples: an address for every text *)

Fixpoint put (p k : positive) : positive :=
  match p with xH => xO k | xO p => xI (xO (put p k)) | xI p => xI (xI (put p k)) end.
Fixpoint get (k : positive) : option (positive * positive) :=
  match k with
  | xO k => Some (xH, k)
  | xI (xO k) => match get k with Some (p, r) => Some (xO p, r) | None => None end
  | xI (xI k) => match get k with Some (p, r) => Some (xI p, r) | None => None end
  | _ => None
  end.
Lemma get_put p k : get (put p k) = Some (p, k).
Proof. induction p; cbn; rewrite ?IHp; reflexivity. Qed.

Definition to_p (z : Z) : positive := match z with Z0 => xH | Zpos p => xO p | Zneg p => xI p end.
Definition of_p (p : positive) : Z := match p with xH => Z0 | xO p => Zpos p | xI p => Zneg p end.

Definition text_addr (s : list Z) : Z := Zpos (fold_right (fun z k => put (to_p z) k) xH s).
Fixpoint text_from (fuel : nat) (k : positive) : list Z :=
  match fuel with O => [] | S n => match get k with Some (p, r) => of_p p :: text_from n r | None => [] end end.
Definition text_at (a : Z) : list Z := match a with Zpos k => text_from (Pos.size_nat k) k | _ => [] end.

Lemma put_size p k : (Pos.size_nat k < Pos.size_nat (put p k))%nat.
Proof. induction p; cbn; lia. Qed.
Lemma text_at_addr s : text_at (text_addr s) = s.
Proof.
  unfold text_at, text_addr. assert (G : forall n, (Pos.size_nat (fold_right (fun z k => put (to_p z) k) xH s) <= n)%nat ->
    text_from n (fold_right (fun z k => put (to_p z) k) xH s) = s).
  { induction s as [|z s IH]; intros n; cbn [fold_right]; [destruct n; reflexivity|]. intros H. set (k := fold_right _ _ s) in *.
    pose proof (put_size (to_p z) k). destruct n as [|n]; [lia|]. cbn [text_from]. rewrite get_put. f_equal; [destruct z; reflexivity|apply IH; lia]. }
  apply G. lia.
Qed.

(** ids 5, 1 (by position) and 7; the next is 9 *)
Definition numbered_root : jval := referring
  [JArray [JString (txt "NextID"); JInt 9]; JMap [(txt "ID", JDouble 4617315517961601024); (txt "x", JInt 4)]; JMap [];
   JMap [(txt "ID", JDouble 4619567317775286272); (txt "Ref", JMap [(txt "t", JString (txt "r"))]); (txt "l", JArray [JString (txt "Mil"); JMap [(txt "Ref", JMap [(txt "t", JString (txt "r"))])]])]].
Definition numbered_files : smap (list Z) := [(txt "src/root.json5", [0]); (txt "src/t.json5", [1])].
Definition numbered_texts := texts [numbered_root; target_table].

(* ------------------------------------------------------------------ *)
(** * C52 *)

(** A validated document from a source with different root names and different ids has
    properly numbered definitions, and all of it has the types of its definitions. *)
Theorem C52_typed_partial : forall addr mem iter parse files r, iterates iter -> (forall s, mem (addr s) = s) ->
  NoDup (source_names parse files) -> zlen (source_names parse files) <= 2 ^ 62 ->
  all_files (everywhere rust_node) parse files -> all_files (everywhere unique_node) parse files ->
  load_root addr iter parse files true = Ok r ->
  exists n (def : rootdef n) (s : sabun n), is_rootdef (ro_default r) def /\ is_sabun (ro_sabun r) s /\
    wf_rootdef def /\ typed_root mem s def.
Proof.
  intros addr mem iter parse files r It Hm N L R U E. destruct (loaded_root addr mem iter parse files r false It Hm N L R U ltac:(discriminate) E) as (n & def & s & A & B & C & D & _).
  exists n, def, s. auto.
Qed.
Print Assumptions C52_typed_partial.

(** If in the source also all ids are below the next one, differences between the document
    and what edits make of it are computed, and reproduce it (see C14_edits_partial). *)
Theorem C52_diff_partial : forall addr mem iter parse files r, iterates iter -> (forall s, mem (addr s) = s) ->
  NoDup (source_names parse files) -> zlen (source_names parse files) <= 2 ^ 62 ->
  all_files (everywhere rust_node) parse files -> all_files (everywhere unique_node) parse files -> all_files (everywhere counted_node) parse files ->
  load_root addr iter parse files true = Ok r ->
  exists n (def : rootdef n) (f : sabun n), is_rootdef (ro_default r) def /\ is_sabun (ro_sabun r) f /\
    (small_rootdef def -> (forall key id d, hget key def <> Some (id, RVMList d true)) ->
     forall t, reached (edit_root true) f t -> typed_root mem t def -> fits_memory f t def ->
     exists bytes, get_diff f t def = Ok bytes /\ wf_bytes bytes /\
       forall f', same_root true false f' f -> exists r', apply_diff f' def bytes = Ok r' /\ same_root true false r' t).
Proof.
  intros addr mem iter parse files r It Hm N L R U C E. destruct (loaded_root addr mem iter parse files r true It Hm N L R U ltac:(auto) E) as (n & def & s & A & B & W & T & Hc).
  exists n, def, s. split; [exact A|]. split; [exact B|]. intros S Un t Re Ty Fi. apply (C14_edits_partial mem n def s t W S Un T Ty (Hc eq_refl) Fi Re).
Qed.
Print Assumptions C52_diff_partial.

Example C52_case : exists r l next,
  iterates backwards /\ (forall s, text_at (text_addr s) = s) /\
  NoDup (source_names numbered_texts numbered_files) /\ zlen (source_names numbered_texts numbered_files) = 2 /\
  all_files (everywhere rust_node) numbered_texts numbered_files /\ all_files (everywhere unique_node) numbered_texts numbered_files /\
  all_files (everywhere counted_node) numbered_texts numbered_files /\
  load_root text_addr backwards numbered_texts numbered_files true = Ok r /\
  hget (txt "list") (ro_sabun r) = Some (RMut (Some (l, next))) /\ map fst l = [5; 1; 7] /\ next = 9.
Proof.
  do 3 eexists. split; [exact backwards_iterates|]. split; [exact text_at_addr|]. split; [repeat constructor; cbn; intuition discriminate|]. split; [reflexivity|].
  split; [|split; [|split; [|split; [vm_compute; reflexivity|split; [reflexivity|split; reflexivity]]]]].
  all: intros path content v [E|[E|[]]]; injection E as <- <-; cbn; intros E; injection E as <-; nodes.
  all: try exact I.
  all: try (vm_compute; repeat constructor; cbn; intuition discriminate).
  all: try (split; [repeat constructor|split; reflexivity]).
  all: try (unfold rust_node, i64_range, u64_range; lia).
Qed.

(** The next id of a source is not checked.  Inserting an item into this validated list
    hands out the id 1 again and drops the item that has it, which stays linked. *)
Theorem C52_next_refuted : exists parse files, forall addr, exists r l next h m,
  NoDup (source_names parse files) /\ all_files (everywhere unique_node) parse files /\
  load_root addr in_place parse files true = Ok r /\
  hget (txt "list") (ro_sabun r) = Some (RMut (Some (l, next))) /\
  construct (fun _ => None) l next (boxes 1 l) = Ok (h, m) /\ lm_first h m <> Panic /\
  forall v, exists h' m', insert_last 2 h m v = Ok (h', m', 1) /\ In 1 (map fst l) /\ lm_first h' m' = Panic.
Proof.
  exists (texts [referring [JMap [(txt "ID", JDouble 4607182418800017408)]]]), [(txt "src/root.json5", [0])].
  intros addr. do 5 eexists. split; [repeat constructor; cbn; intuition discriminate|]. split.
  - intros path content v [E|[]]; injection E as <- <-; cbn; intros E; injection E as <-; nodes; vm_compute; exact I || (repeat constructor; cbn; intuition discriminate).
  - split; [vm_compute; reflexivity|]. split; [reflexivity|]. split; [reflexivity|]. split; [discriminate|]. intros v. do 2 eexists. split; [reflexivity|]. split; [left; reflexivity|reflexivity].
Qed.
Print Assumptions C52_next_refuted.

(** The next id written for an empty list is lost: ids of removed items are used again. *)
Theorem C52_empty_refuted : exists parse files, forall addr, exists r next h m,
  load_root addr in_place parse files true = Ok r /\
  hget (txt "list") (ro_sabun r) = Some (RMut (Some ([], next))) /\ next = 7 /\
  construct (fun _ => None) ([] : list (Z * citem)) next [] = Ok (h, m) /\ next_id m = 0.
Proof.
  exists (texts [referring [JArray [JString (txt "NextID"); JInt 7]]]), [(txt "src/root.json5", [0])].
  intros addr. do 4 eexists. split; [vm_compute; reflexivity|]. split; [reflexivity|]. split; [reflexivity|]. split; reflexivity.
Qed.
Print Assumptions C52_empty_refuted.
