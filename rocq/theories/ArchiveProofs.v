(** Every schedule of reading an archive gives the same result. *)
From Coq Require Import Sorting.Sorted.
From Verif Require Import Base CompactionModel CompactionSpec ArchiveModel ArchiveSpec.

Section Runs.
Context {T H : Type}.
Variable convert : list Z -> list Z -> T.
Variable decompress : list Z -> option (list Z).
Variable hash_new : H.
Variable hash_write : H -> list Z -> H.
Variable hash_finish : H -> Z.
Notation state := (state T H).
Notation slot := (slot T).
Notation step := (step T convert decompress H hash_write hash_finish).
Notation run := (run T convert decompress H hash_write hash_finish).
Notation hash_files := (hash_files hash_write).
Notation as_map := (as_map convert).

Definition content_dec (a b : option (list Z)) : {a = b} + {a <> b}.
Proof. decide equality. apply (list_eq_dec Z.eq_dec). Defined.

(** ** Slots *)

Lemma skipn_skipn_ {A} (l : list A) i j : skipn i (skipn j l) = skipn (j + i) l.
Proof. revert l. induction j as [|j IH]; intros l; [reflexivity|]. destruct l as [|a l]; [now rewrite !skipn_nil|]. apply IH. Qed.

Lemma set_nth_length i x (l : list slot) : (i < length l)%nat -> length (set_nth T i x l) = length l.
Proof. intros L. unfold set_nth. rewrite app_length, firstn_length. cbn [length]. rewrite skipn_length. lia. Qed.
Lemma set_nth_same i x (l : list slot) : (i < length l)%nat -> nth_error (set_nth T i x l) i = Some x.
Proof. intros L. unfold set_nth. rewrite nth_error_app2; rewrite firstn_length; [|lia]. replace (i - Nat.min i (length l))%nat with 0%nat by lia. reflexivity. Qed.
Lemma nth_error_firstn {A} (l : list A) i j : (j < i)%nat -> nth_error (firstn i l) j = nth_error l j.
Proof. revert i j. induction l as [|a l IH]; intros [|i] [|j] L; try lia; try reflexivity. cbn [firstn nth_error]. apply IH. lia. Qed.
Lemma nth_error_skipn {A} (l : list A) i j : nth_error (skipn i l) j = nth_error l (i + j).
Proof. revert l. induction i as [|i IH]; intros l; [reflexivity|]. destruct l as [|a l]; [now destruct j|]. apply IH. Qed.
Lemma set_nth_other i x (l : list slot) j : (i < length l)%nat -> j <> i -> nth_error (set_nth T i x l) j = nth_error l j.
Proof.
  intros L N. unfold set_nth. destruct (Nat.lt_ge_cases j i) as [J|J].
  - rewrite nth_error_app1 by (rewrite firstn_length; lia). now apply nth_error_firstn.
  - rewrite nth_error_app2; rewrite firstn_length, Nat.min_l by lia; [|lia]. destruct (j - i)%nat as [|m] eqn:E; [lia|]. cbn [nth_error]. rewrite nth_error_skipn. f_equal. lia.
Qed.
Lemma nth_lt {A} (l : list A) i x : nth_error l i = Some x -> (i < length l)%nat.
Proof. intros E. apply nth_error_Some. congruence. Qed.

(** how far a file has come *)
Definition stage (s : slot) : nat :=
  match s with Unread => 0 | Compressed _ => 1 | Sent _ => 2 | Archived _ => 3 | Converted _ _ => 4 | Finished => 5 end.

(** ** The invariant *)

Section Inv.
Variable heads : list (list Z * Z).
(** the contents, [None] where reading or decompressing fails *)
Variable want : list (option (list Z)).
Hypothesis Lw : length want = length heads.
Notation n := (length heads).

Fixpoint want_of (heads : list (list Z * Z)) (input : list Z) : list (option (list Z)) :=
  match heads with
  | [] => []
  | (_, len) :: r =>
      if (0 <=? len) && (len <=? zlen input) then decompress (firstn (Z.to_nat len) input) :: want_of r (skipn (Z.to_nat len) input)
      else None :: map (fun _ => None) r
  end.

(** the files, as far as they can be read *)
Definition known (w : option (list Z)) : list Z := match w with Some v => v | None => [] end.
Definition files : list (list Z * list Z) := map (fun e => (fst (fst e), known (snd e))) (combine heads want).

Definition slot_ok (path : list Z) (w : option (list Z)) (s : slot) : Prop :=
  match s with
  | Unread => True
  | Compressed buf => decompress buf = w
  | Sent c => c = w
  | Archived v => w = Some v
  | Converted v t => w = Some v /\ t = convert path v
  | Finished => exists v, w = Some v
  end.

Definition hash_ok (m : nat) (asked : bool) (queue : list (option (list Z * list Z))) (h : hasher H) : Prop :=
  match h with
  | Hashing h => exists j, (j <= m)%nat /\ h = hash_files hash_new (firstn j files) /\
      queue = map Some (skipn j (firstn m files)) ++ (if asked then [None] else [])
  | Hashed z => asked = true /\ z = hash_finish (hash_files hash_new (firstn m files)) /\ queue = []
  end.

Definition arch_ok (s : state) : Prop :=
  match s_arch s with
  | Archiving k => (k <= n)%nat /\
      (forall i x, nth_error (s_slots s) i = Some x -> if (i <? k)%nat then (3 <= stage x <= 4)%nat else (stage x <= 2)%nat) /\
      hash_ok k false (s_queue s) (s_hasher s)
  | Finishing k tree => (k <= n)%nat /\ tree = as_map (firstn k files) /\
      (forall i x, nth_error (s_slots s) i = Some x -> if (i <? k)%nat then stage x = 5%nat else (3 <= stage x <= 4)%nat) /\
      hash_ok n false (s_queue s) (s_hasher s)
  | Waiting tree => tree = as_map files /\ (forall i x, nth_error (s_slots s) i = Some x -> stage x = 5%nat) /\
      hash_ok n true (s_queue s) (s_hasher s)
  | Ended => s_out s <> None
  end.

Record Inv (s : state) : Prop := {
  i_length : length (s_slots s) = n;
  i_main : (s_main s <= n)%nat;
  i_unread : forall i x, nth_error (s_slots s) i = Some x -> (x = Unread <-> (s_main s <= i)%nat);
  i_want : exists pre, length pre = s_main s /\ want = pre ++ want_of (skipn (s_main s) heads) (s_rest s);
  i_slot : forall i x h w, nth_error (s_slots s) i = Some x -> nth_error heads i = Some h -> nth_error want i = Some w -> slot_ok (fst h) w x;
  i_arch : arch_ok s;
  i_out : forall r, s_out s = Some r -> s_arch s = Ended /\
    ((r = Err /\ In None want) \/ (r = Ok (Data (as_map files) (hash_finish (hash_files hash_new files))) /\ ~ In None want));
  i_result : forall r, s_result s = Some r -> (r = Err /\ In None want) \/ s_out s = Some r }.

Lemma files_length : length files = n.
Proof. unfold files. rewrite map_length, combine_length. lia. Qed.
Lemma want_nth i h : nth_error heads i = Some h -> exists w, nth_error want i = Some w.
Proof. intros E. apply nth_lt in E. destruct (nth_error want i) as [w|] eqn:X; [eauto|]. apply nth_error_None in X. lia. Qed.
Lemma files_nth i path len v : nth_error heads i = Some (path, len) -> nth_error want i = Some (Some v) -> nth_error files i = Some (path, v).
Proof.
  unfold files. clear Lw. revert want i. induction heads as [|h hs IH]; intros [|w ws] [|i] E W; try discriminate.
  - cbn in *. inversion E; inversion W; subst. reflexivity.
  - cbn [combine map nth_error] in *. now apply IH.
Qed.
Lemma firstn_S {A} (l : list A) i x : nth_error l i = Some x -> firstn (S i) l = firstn i l ++ [x].
Proof. revert i. induction l as [|a l IH]; intros [|i] E; try discriminate; [now inversion E|]. cbn [nth_error] in E. change (firstn (S (S i)) (a :: l)) with (a :: firstn (S i) l). rewrite (IH i E). reflexivity. Qed.
Lemma skipn_nth {A} (l : list A) i x : nth_error l i = Some x -> skipn i l = x :: skipn (S i) l.
Proof. revert i. induction l as [|a l IH]; intros [|i] E; try discriminate; [now inversion E|]. cbn [nth_error] in E. cbn [skipn]. now apply IH. Qed.
Lemma hash_snoc h l f : hash_files h (l ++ [f]) = hash_write (hash_write (hash_files h l) (fst f)) (snd f).
Proof. revert h. induction l as [|[p v] l IH]; intros h; [destruct f; reflexivity|]. cbn [app ArchiveSpec.hash_files]. apply IH. Qed.
Lemma map_snoc l f : as_map (l ++ [f]) = sm_insert (fst f) (convert (fst f) (snd f), snd f) (as_map l).
Proof. unfold ArchiveSpec.as_map. rewrite fold_left_app. reflexivity. Qed.

Lemma head_end i : nth_error heads i = None -> (n <= i)%nat.
Proof. apply nth_error_None. Qed.

Lemma all_finished s : Inv s -> (forall i x, nth_error (s_slots s) i = Some x -> stage x = 5%nat) -> ~ In None want.
Proof.
  intros I A J. apply In_nth_error in J as [i E]. pose proof (nth_lt _ _ _ E) as L. destruct (nth_error (s_slots s) i) as [x|] eqn:X; [|apply nth_error_None in X; rewrite (i_length _ I) in X; lia].
  destruct (nth_error heads i) as [h|] eqn:Eh; [|apply nth_error_None in Eh; lia]. pose proof (i_slot _ I i x h None X Eh E) as O. pose proof (A i x X) as S. destruct x; try discriminate S. destruct O as [v O]. discriminate.
Qed.

(** a change of one slot *)
Lemma slots_change (s : state) i x y : Inv s -> nth_error (s_slots s) i = Some x ->
  (forall h w, nth_error heads i = Some h -> nth_error want i = Some w -> slot_ok (fst h) w y) ->
  length (set_nth T i y (s_slots s)) = n /\
  (forall j z h w, nth_error (set_nth T i y (s_slots s)) j = Some z -> nth_error heads j = Some h -> nth_error want j = Some w -> slot_ok (fst h) w z).
Proof.
  intros I X O. pose proof (nth_lt _ _ _ X) as L. split; [rewrite set_nth_length; [apply (i_length _ I)|exact L]|].
  intros j z h w Z Eh Ew. destruct (Nat.eq_dec j i) as [->|N].
  - rewrite set_nth_same in Z by exact L. inversion Z; subst. eauto.
  - rewrite set_nth_other in Z by assumption. eapply (i_slot _ I); eassumption.
Qed.
Lemma each_change (P Q : nat -> slot -> Prop) (l : list slot) i x y : nth_error l i = Some x -> (forall j z, nth_error l j = Some z -> P j z) -> Q i y -> (forall j z, j <> i -> P j z -> Q j z) ->
  forall j z, nth_error (set_nth T i y l) j = Some z -> Q j z.
Proof.
  intros X A Qy M j z Z. pose proof (nth_lt _ _ _ X) as L. destruct (Nat.eq_dec j i) as [->|N].
  - rewrite set_nth_same in Z by exact L. inversion Z; now subst.
  - rewrite set_nth_other in Z by assumption. auto.
Qed.

(** other parts of the state do not matter *)
Lemma unread_change (s : state) i x y : Inv s -> nth_error (s_slots s) i = Some x -> x <> Unread -> y <> Unread ->
  forall j z, nth_error (set_nth T i y (s_slots s)) j = Some z -> (z = Unread <-> (s_main s <= j)%nat).
Proof.
  intros I X Nx Ny. apply (each_change (fun j z => z = Unread <-> (s_main s <= j)%nat) (fun j z => z = Unread <-> (s_main s <= j)%nat) _ i x y X (i_unread _ I)); [|auto].
  split; [contradiction|]. intros L. apply (i_unread _ I _ _ X) in L. contradiction.
Qed.

Lemma inv_step s s' : Inv s -> step heads s s' -> Inv s'.
Proof.
  intros I S. pose proof (i_length _ I) as Il. pose proof (i_main _ I) as Im. pose proof (i_unread _ I) as Iu. pose proof (i_want _ I) as Iw. pose proof (i_slot _ I) as Is.
  pose proof (i_arch _ I) as Ia. pose proof (i_out _ I) as Io. pose proof (i_result _ I) as Ir.
  destruct S as [s path len R E L|s path len R E L|s i buf E|s k path len v A E X|s k A X|s k r A X R|s k A E|s i path len v E X|s k tree path len v t A E X|s k tree A E|s h path v queue A E|s h queue A E|s tree hash A E|s r R E O].
  - (* read *)
    pose proof (nth_lt _ _ _ E) as Lm. assert (X : nth_error (s_slots s) (s_main s) = Some Unread).
    { destruct (nth_error (s_slots s) (s_main s)) as [x|] eqn:X; [|apply nth_error_None in X; lia]. f_equal. apply (Iu _ _ X). lia. }
    destruct Iw as (pre & Lp & W). rewrite (skipn_nth _ _ _ E) in W. cbn [want_of] in W.
    replace ((0 <=? len) && (len <=? zlen (s_rest s))) with true in W by (symmetry; apply andb_true_intro; split; apply Z.leb_le; lia).
    set (buf := firstn (Z.to_nat len) (s_rest s)) in *.
    destruct (slots_change s (s_main s) Unread (Compressed buf) I X) as [Il' Is'].
    { intros h w Eh Ew. cbn [slot_ok]. rewrite W, nth_error_app2, Lp, Nat.sub_diag in Ew by lia. cbn [nth_error] in Ew. now inversion Ew. }
    constructor; cbn [s_main s_rest s_slots s_arch s_queue s_hasher s_out s_result]; try assumption.
    + intros j z Z. destruct (Nat.eq_dec j (s_main s)) as [->|N].
      * rewrite set_nth_same in Z by lia. inversion Z; subst z. split; [discriminate|lia].
      * rewrite set_nth_other in Z by (assumption || lia). rewrite (Iu _ _ Z). lia.
    + exists (pre ++ [decompress buf]). split; [rewrite app_length, Lp; cbn [length]; lia|]. rewrite <- app_assoc. exact W.
    + unfold arch_ok in *. cbn [s_arch s_slots s_queue s_hasher s_out]. destruct (s_arch s) as [k|k tree|tree|].
      * destruct Ia as (Lk & St & Ha). split; [exact Lk|]. split; [|exact Ha].
        apply (each_change (fun i x => if (i <? k)%nat then (3 <= stage x <= 4)%nat else (stage x <= 2)%nat) _ _ _ _ _ X St); [|auto].
        pose proof (St _ _ X) as Y. cbn [stage] in *. destruct (s_main s <? k)%nat; lia.
      * exfalso. destruct Ia as (_ & _ & St & _). pose proof (St _ _ X) as Y. cbn [stage] in Y. destruct (s_main s <? k)%nat; lia.
      * exfalso. destruct Ia as (_ & St & _). pose proof (St _ _ X) as Y. cbn [stage] in Y. lia.
      * exact Ia.
    + discriminate.
  - (* read fails *)
    constructor; cbn [s_main s_rest s_slots s_arch s_queue s_hasher s_out s_result]; try assumption.
    intros r Er. inversion Er; subst r. left. split; [reflexivity|]. destruct Iw as (pre & Lp & W). rewrite (skipn_nth _ _ _ E) in W. cbn [want_of] in W.
    destruct ((0 <=? len) && (len <=? zlen (s_rest s))) eqn:B; [apply andb_prop in B as [B1 B2]; apply Z.leb_le in B1, B2; exfalso; apply L; lia|]. rewrite W. apply in_or_app. right. now left.
  - (* decompress *)
    destruct (slots_change s i (Compressed buf) (Sent (decompress buf)) I E) as [Il' Is'].
    { intros h w Eh Ew. cbn [slot_ok]. exact (Is _ _ _ _ E Eh Ew). }
    constructor; cbn [s_main s_rest s_slots s_arch s_queue s_hasher s_out s_result]; try assumption.
    + apply (unread_change s i (Compressed buf)); [exact I|exact E|discriminate|discriminate].
    + unfold arch_ok in *. cbn [s_arch s_slots s_queue s_hasher s_out]. destruct (s_arch s) as [k|k tree|tree|].
      * destruct Ia as (Lk & St & Ha). split; [exact Lk|]. split; [|exact Ha].
        apply (each_change (fun i x => if (i <? k)%nat then (3 <= stage x <= 4)%nat else (stage x <= 2)%nat) _ _ _ _ _ E St); [|auto].
        pose proof (St _ _ E) as Y. cbn [stage] in *. destruct (i <? k)%nat; lia.
      * exfalso. destruct Ia as (_ & _ & St & _). pose proof (St _ _ E) as Y. cbn [stage] in Y. destruct (i <? k)%nat; lia.
      * exfalso. destruct Ia as (_ & St & _). pose proof (St _ _ E) as Y. cbn [stage] in Y. lia.
      * exact Ia.
  - (* archive *)
    destruct (want_nth _ _ E) as [w Ew]. pose proof (Is _ _ _ _ X E Ew) as Sw. cbn [slot_ok] in Sw. subst w.
    destruct (slots_change s k (Sent (Some v)) (Archived v) I X) as [Il' Is'].
    { intros h w Eh Ew'. cbn [slot_ok]. congruence. }
    constructor; cbn [s_main s_rest s_slots s_arch s_queue s_hasher s_out s_result]; try assumption.
    + apply (unread_change s k (Sent (Some v))); [exact I|exact X|discriminate|discriminate].
    + unfold arch_ok in *. rewrite A in Ia. cbn [s_arch s_slots s_queue s_hasher s_out]. destruct Ia as (Lk & St & Ha). split; [apply nth_lt in E; lia|]. split.
      * apply (each_change (fun i x => if (i <? k)%nat then (3 <= stage x <= 4)%nat else (stage x <= 2)%nat) _ _ _ _ _ X St).
        -- destruct (Nat.ltb_spec k (S k)); cbn [stage]; lia.
        -- intros j z N. destruct (Nat.ltb_spec j k), (Nat.ltb_spec j (S k)); lia.
      * unfold hash_ok in *. destruct (s_hasher s) as [h|z]; [|destruct Ha as [Ha _]; discriminate Ha]. destruct Ha as (j & Lj & Eh & Eq). exists j. split; [lia|]. split; [exact Eh|].
        rewrite Eq, !app_nil_r, (firstn_S files k (path, v)) by (now apply (files_nth k path len)).
        rewrite skipn_app, firstn_length, files_length, Nat.min_l by lia. replace (j - k)%nat with 0%nat by lia. cbn [skipn]. now rewrite map_app.
    + intros r O. destruct (Io _ O) as [C _]. congruence.
  - (* archive fails *)
    constructor; cbn [s_main s_rest s_slots s_arch s_queue s_hasher s_out s_result]; try assumption.
    + unfold arch_ok. cbn. discriminate.
    + intros r Er. inversion Er; subst r. split; [reflexivity|]. left. split; [reflexivity|]. pose proof (nth_lt _ _ _ X) as Lk. destruct (nth_error heads k) as [h|] eqn:Eh; [|apply nth_error_None in Eh; lia].
      destruct (want_nth _ _ Eh) as [w Ew]. pose proof (Is _ _ _ _ X Eh Ew) as Sw. cbn [slot_ok] in Sw. subst w. now apply nth_error_In in Ew.
    + intros r Er. destruct (Ir _ Er) as [?|O]; [now left|]. destruct (Io _ O) as [C _]. congruence.
  - (* the caller has gone *)
    assert (B : In None want). { destruct (Ir _ R) as [[_ B]|O]; [exact B|]. destruct (Io _ O) as [C _]. congruence. }
    constructor; cbn [s_main s_rest s_slots s_arch s_queue s_hasher s_out s_result]; try assumption.
    + unfold arch_ok. cbn. discriminate.
    + intros r' Er. inversion Er; subst r'. split; [reflexivity|]. now left.
    + intros r' Er. destruct (Ir _ Er) as [?|O]; [now left|]. destruct (Io _ O) as [C _]. congruence.
  - (* archived *)
    apply head_end in E. constructor; cbn [s_main s_rest s_slots s_arch s_queue s_hasher s_out s_result]; try assumption.
    + unfold arch_ok in *. rewrite A in Ia. cbn [s_arch s_slots s_queue s_hasher s_out]. destruct Ia as (Lk & St & Ha). assert (k = n) by lia. subst k. split; [lia|]. split; [reflexivity|]. split; [|exact Ha].
      intros i x X. pose proof (St _ _ X) as Y. apply nth_lt in X. destruct (Nat.ltb_spec i n); [|lia]. exact Y.
    + intros r O. destruct (Io _ O) as [C _]. congruence.
  - (* convert *)
    destruct (slots_change s i (Archived v) (Converted v (convert path v)) I X) as [Il' Is'].
    { intros h w Eh Ew. cbn [slot_ok]. split; [exact (Is _ _ _ _ X Eh Ew)|]. rewrite E in Eh. inversion Eh. reflexivity. }
    constructor; cbn [s_main s_rest s_slots s_arch s_queue s_hasher s_out s_result]; try assumption.
    + apply (unread_change s i (Archived v)); [exact I|exact X|discriminate|discriminate].
    + unfold arch_ok in *. cbn [s_arch s_slots s_queue s_hasher s_out]. destruct (s_arch s) as [k|k tree|tree|].
      * destruct Ia as (Lk & St & Ha). split; [exact Lk|]. split; [|exact Ha].
        apply (each_change (fun i x => if (i <? k)%nat then (3 <= stage x <= 4)%nat else (stage x <= 2)%nat) _ _ _ _ _ X St); [|auto].
        pose proof (St _ _ X) as Y. cbn [stage] in *. destruct (i <? k)%nat; lia.
      * destruct Ia as (Lk & Et & St & Ha). split; [exact Lk|]. split; [exact Et|]. split; [|exact Ha].
        apply (each_change (fun i x => if (i <? k)%nat then stage x = 5%nat else (3 <= stage x <= 4)%nat) _ _ _ _ _ X St); [|auto].
        pose proof (St _ _ X) as Y. cbn [stage] in *. destruct (i <? k)%nat; lia.
      * exfalso. destruct Ia as (_ & St & _). pose proof (St _ _ X) as Y. cbn [stage] in Y. lia.
      * exact Ia.
  - (* finish *)
    destruct (want_nth _ _ E) as [w Ew]. pose proof (Is _ _ _ _ X E Ew) as Sw. cbn [slot_ok fst] in Sw. destruct Sw as [-> ->].
    destruct (slots_change s k (Converted v (convert path v)) Finished I X) as [Il' Is'].
    { intros h w Eh Ew'. cbn [slot_ok]. exists v. congruence. }
    constructor; cbn [s_main s_rest s_slots s_arch s_queue s_hasher s_out s_result]; try assumption.
    + apply (unread_change s k (Converted v (convert path v))); [exact I|exact X|discriminate|discriminate].
    + unfold arch_ok in *. rewrite A in Ia. cbn [s_arch s_slots s_queue s_hasher s_out]. destruct Ia as (Lk & Et & St & Ha). split; [apply nth_lt in E; lia|]. split.
      { rewrite (firstn_S files k (path, v)) by (now apply (files_nth k path len)). rewrite map_snoc, Et. reflexivity. }
      split; [|exact Ha]. apply (each_change (fun i x => if (i <? k)%nat then stage x = 5%nat else (3 <= stage x <= 4)%nat) _ _ _ _ _ X St).
      * destruct (Nat.ltb_spec k (S k)); cbn [stage]; lia.
      * intros j z N. destruct (Nat.ltb_spec j k), (Nat.ltb_spec j (S k)); lia.
    + intros r O. destruct (Io _ O) as [C _]. congruence.
  - (* ask *)
    apply head_end in E. constructor; cbn [s_main s_rest s_slots s_arch s_queue s_hasher s_out s_result]; try assumption.
    + unfold arch_ok in *. rewrite A in Ia. cbn [s_arch s_slots s_queue s_hasher s_out]. destruct Ia as (Lk & Et & St & Ha). assert (k = n) by lia. subst k. split.
      { rewrite Et, <- files_length, firstn_all. reflexivity. }
      split.
      * intros i x X. pose proof (St _ _ X) as Y. apply nth_lt in X. destruct (Nat.ltb_spec i n); [exact Y|lia].
      * unfold hash_ok in *. destruct (s_hasher s) as [h|z]; [|destruct Ha as [Ha _]; discriminate Ha]. destruct Ha as (j & Lj & Eh & Eq). exists j. split; [exact Lj|]. split; [exact Eh|]. rewrite Eq, app_nil_r. reflexivity.
    + intros r O. destruct (Io _ O) as [C _]. congruence.
  - (* hash *)
    assert (Go : forall m asked, (m <= n)%nat -> hash_ok m asked (s_queue s) (s_hasher s) -> hash_ok m asked queue (Hashing (hash_write (hash_write h path) v))).
    { intros m asked Lm Ha. unfold hash_ok in Ha. rewrite A, E in Ha. destruct Ha as (j & Lj & Eh & Eq). cbn [hash_ok]. exists (S j).
      destruct (skipn j (firstn m files)) as [|f l] eqn:Sk; [destruct asked; discriminate Eq|]. cbn [map app] in Eq. inversion Eq as [[Ef Eq']].
      assert (Nf : nth_error (firstn m files) j = Some f). { rewrite <- (Nat.add_0_r j), <- nth_error_skipn, Sk. reflexivity. }
      pose proof (nth_lt _ _ _ Nf) as Lj'. rewrite firstn_length, files_length in Lj'. rewrite nth_error_firstn in Nf by lia.
      split; [lia|]. split; [rewrite (firstn_S _ _ _ Nf), hash_snoc, Eh, <- Ef; reflexivity|]. f_equal. f_equal.
      change (S j) with (1 + j)%nat. rewrite Nat.add_comm, <- skipn_skipn_, Sk. reflexivity. }
    constructor; cbn [s_main s_rest s_slots s_arch s_queue s_hasher s_out s_result]; try assumption.
    unfold arch_ok in *. cbn [s_arch s_slots s_queue s_hasher s_out]. destruct (s_arch s) as [k|k tree|tree|].
    + destruct Ia as (Lk & St & Ha). auto.
    + destruct Ia as (Lk & Et & St & Ha). auto.
    + destruct Ia as (Et & St & Ha). auto.
    + exact Ia.
  - (* hashed *)
    assert (Go : forall m asked, (m <= n)%nat -> hash_ok m asked (s_queue s) (s_hasher s) -> hash_ok m asked queue (Hashed (hash_finish h))).
    { intros m asked Lm Ha. unfold hash_ok in Ha. rewrite A, E in Ha. destruct Ha as (j & Lj & Eh & Eq). cbn [hash_ok].
      destruct (skipn j (firstn m files)) as [|f l] eqn:Sk; [|discriminate Eq]. destruct asked; [|discriminate Eq]. cbn in Eq. inversion Eq. split; [reflexivity|]. split; [|reflexivity].
      assert (Lj' : (length (firstn m files) <= j)%nat). { apply (f_equal (@length _)) in Sk. rewrite skipn_length in Sk. cbn in Sk. lia. }
      rewrite firstn_length, files_length in Lj'. rewrite Eh. do 3 f_equal. lia. }
    constructor; cbn [s_main s_rest s_slots s_arch s_queue s_hasher s_out s_result]; try assumption.
    unfold arch_ok in *. cbn [s_arch s_slots s_queue s_hasher s_out]. destruct (s_arch s) as [k|k tree|tree|].
    + destruct Ia as (Lk & St & Ha). auto.
    + destruct Ia as (Lk & Et & St & Ha). auto.
    + destruct Ia as (Et & St & Ha). auto.
    + exact Ia.
  - (* end *)
    unfold arch_ok in Ia. rewrite A in Ia. destruct Ia as (Et & St & Ha). unfold hash_ok in Ha. rewrite E in Ha. destruct Ha as (_ & Eh & _).
    constructor; cbn [s_main s_rest s_slots s_arch s_queue s_hasher s_out s_result]; try assumption.
    + unfold arch_ok. cbn. discriminate.
    + intros r Er. inversion Er; subst r. split; [reflexivity|]. right. split; [|now apply (all_finished s)]. rewrite Et, Eh, <- files_length, firstn_all. reflexivity.
    + intros r Er. destruct (Ir _ Er) as [?|O]; [now left|]. destruct (Io _ O) as [C _]. congruence.
  - (* return *)
    constructor; cbn [s_main s_rest s_slots s_arch s_queue s_hasher s_out s_result]; try assumption.
    intros r' Er. inversion Er; subst r'. now right.
Qed.

Lemma inv_run s0 k s : Inv s0 -> run heads s0 k s -> Inv s.
Proof. intros I R. induction R as [|k s s' R IH S]; [exact I|]. exact (inv_step _ _ IH S). Qed.

(** ** No deadlock *)

Lemma progress s : Inv s -> s_result s = None -> exists s', step heads s s'.
Proof.
  intros I R. pose proof (i_length _ I) as Il. pose proof (i_main _ I) as Im. pose proof (i_arch _ I) as Ia. unfold arch_ok in Ia.
  destruct (nth_error heads (s_main s)) as [[path len]|] eqn:E.
  { destruct (Z_le_dec 0 len) as [L0|L0], (Z_le_dec len (zlen (s_rest s))) as [L1|L1].
    1: eexists; apply (step_read _ _ _ _ _ _ heads s path len R E); lia.
    all: eexists; apply (step_read_fails _ _ _ _ _ _ heads s path len R E); lia. }
  pose proof (head_end _ E) as Lm. assert (Nu : forall i x, nth_error (s_slots s) i = Some x -> x <> Unread).
  { intros i x X N. apply (i_unread _ I _ _ X) in N. apply nth_lt in X. lia. }
  destruct (s_arch s) as [k|k tree|tree|] eqn:A.
  - destruct Ia as (Lk & St & _). destruct (nth_error heads k) as [[path len]|] eqn:Ek; [|eexists; now apply step_archived with (k := k)].
    pose proof (nth_lt _ _ _ Ek) as Lk'. destruct (nth_error (s_slots s) k) as [x|] eqn:X; [|apply nth_error_None in X; lia].
    pose proof (St _ _ X) as Y. rewrite Nat.ltb_irrefl in Y. pose proof (Nu _ _ X) as Nx. destruct x as [|buf|[v|]| | |]; cbn [stage] in Y; try lia; try congruence.
    + eexists. now apply step_decompress with (i := k) (buf := buf).
    + eexists. now apply step_archive with (k := k) (path := path) (len := len) (v := v).
    + eexists. now apply step_archive_fails with (k := k).
  - destruct Ia as (Lk & _ & St & _). destruct (nth_error heads k) as [[path len]|] eqn:Ek; [|eexists; now apply step_ask with (k := k) (tree := tree)].
    pose proof (nth_lt _ _ _ Ek) as Lk'. destruct (nth_error (s_slots s) k) as [x|] eqn:X; [|apply nth_error_None in X; lia].
    pose proof (St _ _ X) as Y. rewrite Nat.ltb_irrefl in Y. destruct x as [|buf|c|v|v t|]; cbn [stage] in Y; try lia.
    + eexists. now apply step_convert with (i := k) (path := path) (len := len) (v := v).
    + eexists. now apply step_finish with (k := k) (tree := tree) (path := path) (len := len) (v := v) (t := t).
  - destruct Ia as (_ & _ & Ha). unfold hash_ok in Ha. destruct (s_hasher s) as [h|z] eqn:Eh; [|eexists; now apply step_end with (tree := tree) (hash := z)].
    destruct Ha as (j & _ & _ & Eq). destruct (s_queue s) as [|[[path v]|] queue] eqn:Q.
    + exfalso. destruct (skipn j (firstn n files)); discriminate Eq.
    + eexists. now apply step_hash with (h := h) (path := path) (v := v) (queue := queue).
    + eexists. now apply step_hashed with (h := h) (queue := queue).
  - destruct (s_out s) as [r|] eqn:O; [|congruence]. eexists. now apply step_return with (r := r).
Qed.

(** the archiving thread is never left waiting, also after the function has returned *)
Lemma archiver_goes_on s : Inv s -> s_arch s <> Ended -> exists s', step heads s s'.
Proof.
  intros I A'. destruct (s_result s) as [r|] eqn:R; [|apply progress; assumption]. pose proof (i_length _ I) as Il. pose proof (i_arch _ I) as Ia. unfold arch_ok in Ia.
  destruct (s_arch s) as [k|k tree|tree|] eqn:A; [| | |congruence].
  - destruct Ia as (Lk & St & _). destruct (nth_error heads k) as [[path len]|] eqn:Ek; [|eexists; now apply step_archived with (k := k)].
    pose proof (nth_lt _ _ _ Ek) as Lk'. destruct (nth_error (s_slots s) k) as [x|] eqn:X; [|apply nth_error_None in X; lia].
    pose proof (St _ _ X) as Y. rewrite Nat.ltb_irrefl in Y. destruct x as [|buf|[v|]| | |]; cbn [stage] in Y; try lia.
    + eexists. now apply step_archive_gone with (k := k) (r := r).
    + eexists. now apply step_decompress with (i := k) (buf := buf).
    + eexists. now apply step_archive with (k := k) (path := path) (len := len) (v := v).
    + eexists. now apply step_archive_fails with (k := k).
  - destruct Ia as (Lk & _ & St & _). destruct (nth_error heads k) as [[path len]|] eqn:Ek; [|eexists; now apply step_ask with (k := k) (tree := tree)].
    pose proof (nth_lt _ _ _ Ek) as Lk'. destruct (nth_error (s_slots s) k) as [x|] eqn:X; [|apply nth_error_None in X; lia].
    pose proof (St _ _ X) as Y. rewrite Nat.ltb_irrefl in Y. destruct x as [|buf|c|v|v t|]; cbn [stage] in Y; try lia.
    + eexists. now apply step_convert with (i := k) (path := path) (len := len) (v := v).
    + eexists. now apply step_finish with (k := k) (tree := tree) (path := path) (len := len) (v := v) (t := t).
  - destruct Ia as (_ & _ & Ha). unfold hash_ok in Ha. destruct (s_hasher s) as [h|z] eqn:Eh; [|eexists; now apply step_end with (tree := tree) (hash := z)].
    destruct Ha as (j & _ & _ & Eq). destruct (s_queue s) as [|[[path v]|] queue] eqn:Q.
    + exfalso. destruct (skipn j (firstn n files)); discriminate Eq.
    + eexists. now apply step_hash with (h := h) (path := path) (v := v) (queue := queue).
    + eexists. now apply step_hashed with (h := h) (queue := queue).
Qed.
Lemma all_end s : Inv s -> (forall s', ~ step heads s s') ->
  s_result s <> None /\ s_arch s = Ended /\ (forall buf, ~ In (Compressed buf) (s_slots s)) /\ (forall v, ~ In (Archived v) (s_slots s)).
Proof.
  intros I N. pose proof (i_length _ I) as Il. split; [intros R; destruct (progress s I R) as [s' S]; exact (N _ S)|]. split; [|split].
  - destruct (s_arch s) eqn:A; try reflexivity; (destruct (archiver_goes_on s I) as [s' S]; [congruence|destruct (N _ S)]).
  - intros buf X. apply In_nth_error in X as [i X]. eapply N. now apply step_decompress with (i := i) (buf := buf).
  - intros v X. apply In_nth_error in X as [i X]. destruct (nth_error heads i) as [[path len]|] eqn:E; [|apply nth_error_None in E; apply nth_lt in X; lia].
    eapply N. now apply step_convert with (i := i) (path := path) (len := len) (v := v).
Qed.

(** ** Every run ends *)

Definition left_of (l : list slot) : nat := list_sum (map (fun x => 5 - stage x)%nat l).
Lemma left_change i x y (l : list slot) : nth_error l i = Some x -> (left_of (set_nth T i y l) + (5 - stage x) = left_of l + (5 - stage y))%nat.
Proof.
  unfold left_of, set_nth. intros X. rewrite <- (firstn_skipn i l) at 3. rewrite (skipn_nth _ _ _ X), !map_app, !list_sum_app. cbn [map list_sum fold_right]. unfold list_sum. lia.
Qed.
Definition arch_left (a : arch T) : nat :=
  match a with Archiving k => 3 * (n - k) + n + 8 | Finishing k _ => (n - k) + 6 | Waiting _ => 3 | Ended => 0 end.
Definition measure (s : state) : nat :=
  (n - s_main s) + left_of (s_slots s) + arch_left (s_arch s) + length (s_queue s) + match s_result s with None => 1 | Some _ => 0 end.

Lemma measure_step s s' : Inv s -> step heads s s' -> (measure s' < measure s)%nat.
Proof.
  intros I S. pose proof (i_length _ I) as Il. pose proof (i_unread _ I) as Iu. pose proof (i_main _ I) as Im. unfold measure.
  destruct S as [s path len R E L|s path len R E L|s i buf E|s k path len v A E X|s k A X|s k r A X R|s k A E|s i path len v E X|s k tree path len v t A E X|s k tree A E|s h path v queue A E|s h queue A E|s tree hash A E|s r R E O];
    cbn [s_main s_rest s_slots s_arch s_queue s_hasher s_out s_result].
  - pose proof (nth_lt _ _ _ E) as Lm. assert (X : nth_error (s_slots s) (s_main s) = Some Unread).
    { destruct (nth_error (s_slots s) (s_main s)) as [x|] eqn:X; [|apply nth_error_None in X; lia]. f_equal. apply (Iu _ _ X). lia. }
    pose proof (left_change _ _ (Compressed (firstn (Z.to_nat len) (s_rest s))) _ X) as C. cbn [stage] in C. rewrite R. lia.
  - rewrite R. lia.
  - pose proof (left_change _ _ (Sent (decompress buf)) _ E) as C. cbn [stage] in C. lia.
  - pose proof (left_change _ _ (Archived v) _ X) as C. cbn [stage] in C. pose proof (nth_lt _ _ _ E). rewrite A, app_length. cbn [arch_left length]. lia.
  - rewrite A. cbn [arch_left]. lia.
  - rewrite A. cbn [arch_left]. lia.
  - rewrite A. cbn [arch_left]. apply head_end in E. lia.
  - pose proof (left_change _ _ (Converted v (convert path v)) _ X) as C. cbn [stage] in C. lia.
  - pose proof (left_change _ _ Finished _ X) as C. cbn [stage] in C. pose proof (nth_lt _ _ _ E). rewrite A. cbn [arch_left]. lia.
  - rewrite A, app_length. cbn [arch_left length]. apply head_end in E. lia.
  - rewrite E. cbn [length]. lia.
  - rewrite E. cbn [length]. lia.
  - rewrite A. cbn [arch_left]. lia.
  - rewrite R. lia.
Qed.

Lemma run_bound s0 k s : Inv s0 -> run heads s0 k s -> (k + measure s <= measure s0)%nat.
Proof.
  intros I R. induction R as [|k s s' R IH S]; [lia|]. pose proof (measure_step _ _ (inv_run _ _ _ I R) S). lia.
Qed.

Lemma returns s0 k s : Inv s0 -> run heads s0 k s -> exists k' s' r, run heads s0 k' s' /\ s_result s' = Some r.
Proof.
  intros I. remember (measure s) as m eqn:M. revert k s M. induction m as [m IH] using lt_wf_ind. intros k s M R.
  destruct (s_result s) as [r|] eqn:E; [eauto|]. destruct (progress s (inv_run _ _ _ I R) E) as [s' S].
  pose proof (measure_step _ _ (inv_run _ _ _ I R) S) as D. eapply (IH (measure s')); [lia|reflexivity|]. econstructor; eassumption.
Qed.

Definition outcome : res (data T) := if in_dec content_dec None want then Err else Ok (Data (as_map files) (hash_finish (hash_files hash_new files))).

Lemma result s0 k s r : Inv s0 -> run heads s0 k s -> s_result s = Some r -> r = outcome.
Proof.
  intros I R E. pose proof (inv_run _ _ _ I R) as J. unfold outcome. destruct (i_result _ J _ E) as [[-> B]|O].
  - destruct (in_dec _ None want); [reflexivity|contradiction].
  - destruct (i_out _ J _ O) as [_ [[-> B]|[-> B]]]; destruct (in_dec _ None want); tauto.
Qed.
End Inv.

(** ** Starting *)

Lemma want_of_length heads input : length (want_of heads input) = length heads.
Proof. revert input. induction heads as [|[p len] r IH]; intros input; [reflexivity|]. cbn [want_of]. destruct (_ && _); cbn [length]; f_equal; [apply IH|apply map_length]. Qed.

Lemma reading_inv heads input : Inv heads (want_of heads input) (reading T H hash_new heads input).
Proof.
  assert (U : forall i x, nth_error (map (fun _ : list Z * Z => @Unread T) heads) i = Some x -> x = Unread).
  { intros i x E. apply nth_error_In, in_map_iff in E as (y & <- & _). reflexivity. }
  unfold reading. constructor; cbn [s_main s_rest s_slots s_arch s_queue s_hasher s_out s_result].
  - apply map_length.
  - lia.
  - intros i x E. split; [lia|]. intros _. eauto.
  - exists []. split; reflexivity.
  - intros i x h w E _ _. rewrite (U _ _ E). exact I.
  - unfold arch_ok. cbn [s_arch s_slots s_queue s_hasher]. split; [lia|]. split.
    + intros i x E. rewrite (U _ _ E). cbn [Nat.ltb Nat.leb stage]. lia.
    + cbn [hash_ok]. exists 0%nat. split; [lia|]. split; reflexivity.
  - discriminate.
  - discriminate.
Qed.

Lemma archiving_inv (fs : smap (list Z)) : Inv (no_sizes fs) (map (fun f => Some (snd f)) fs) (archiving T H hash_new fs).
Proof.
  assert (U : forall i x, nth_error (map (fun f : list Z * list Z => @Sent T (Some (snd f))) fs) i = Some x -> exists f, nth_error fs i = Some f /\ x = Sent (Some (snd f))).
  { intros i x E. rewrite nth_error_map in E. destruct (nth_error fs i) as [f|]; [|discriminate]. inversion E. eauto. }
  unfold archiving, no_sizes. constructor; cbn [s_main s_rest s_slots s_arch s_queue s_hasher s_out s_result]; rewrite ?map_length.
  - reflexivity.
  - lia.
  - intros i x E. apply nth_lt in E as L. rewrite map_length in L. destruct (U _ _ E) as (f & _ & ->). split; [discriminate|lia].
  - exists (map (fun f => Some (snd f)) fs). split; [apply map_length|]. rewrite skipn_all2 by (rewrite map_length; lia). cbn [want_of]. now rewrite app_nil_r.
  - intros i x h w E _ Ew. destruct (U _ _ E) as (f & Ef & ->). cbn [slot_ok]. rewrite nth_error_map, Ef in Ew. now inversion Ew.
  - unfold arch_ok. cbn [s_arch s_slots s_queue s_hasher]. split; [lia|]. split.
    + intros i x E. destruct (U _ _ E) as (f & _ & ->). cbn [Nat.ltb Nat.leb stage]. lia.
    + cbn [hash_ok]. exists 0%nat. split; [lia|]. split; reflexivity.
  - discriminate.
  - discriminate.
Qed.

Lemma read_files_want heads input : read_files decompress heads input =
  if in_dec content_dec None (want_of heads input) then None else Some (files heads (want_of heads input)).
Proof.
  revert input. induction heads as [|[p len] r IH]; intros input; [reflexivity|]. cbn [read_files want_of]. destruct (_ && _).
  - rewrite IH. destruct (decompress _) as [v|].
    + destruct (in_dec _ None (want_of _ _)) as [J|J], (in_dec _ None (Some v :: _)) as [K|K]; try reflexivity.
      * exfalso. apply K. now right.
      * exfalso. destruct K as [K|K]; [discriminate|auto].
    + destruct (in_dec _ None (None :: _)) as [K|K]; [reflexivity|]. exfalso. apply K. now left.
  - destruct (in_dec _ None (None :: _)) as [K|K]; [reflexivity|]. exfalso. apply K. now left.
Qed.

Notation read_result := (read_result convert hash_new hash_write hash_finish decompress).

Lemma outcome_read heads input : outcome heads (want_of heads input) = read_result heads input.
Proof. unfold outcome, ArchiveSpec.read_result. rewrite read_files_want. destruct (in_dec _ None _); reflexivity. Qed.

Lemma reading_result heads input k s r : run heads (reading T H hash_new heads input) k s -> s_result s = Some r -> r = read_result heads input.
Proof. intros R E. rewrite <- outcome_read. eapply result; [apply want_of_length|apply reading_inv|exact R|exact E]. Qed.

Lemma reading_goes_on heads input k s : run heads (reading T H hash_new heads input) k s -> s_result s = None -> exists s', step heads s s'.
Proof.
  intros R E. eapply progress; [apply want_of_length| |exact E]. eapply inv_run; [apply want_of_length|apply reading_inv|exact R].
Qed.

Lemma reading_all_end heads input k s : run heads (reading T H hash_new heads input) k s -> (forall s', ~ step heads s s') ->
  s_result s <> None /\ s_arch s = Ended /\ (forall buf, ~ In (Compressed buf) (s_slots s)) /\ (forall v, ~ In (Archived v) (s_slots s)).
Proof.
  intros R N. eapply all_end; [apply want_of_length| |exact N]. eapply inv_run; [apply want_of_length|apply reading_inv|exact R].
Qed.

Lemma reading_bound heads input k s : run heads (reading T H hash_new heads input) k s -> (k <= 10 * length heads + 9)%nat.
Proof.
  intros R. pose proof (run_bound _ _ (want_of_length heads input) _ _ _ (reading_inv heads input) R) as B.
  enough (measure heads (reading T H hash_new heads input) <= 10 * length heads + 9)%nat by lia. unfold measure, reading. cbn [s_main s_slots s_arch s_queue s_result arch_left length].
  assert (left_of (map (fun _ : list Z * Z => @Unread T) heads) = 5 * length heads)%nat as ->; [|lia]. unfold left_of. clear. induction heads as [|h l IH]; [reflexivity|]. cbn [map list_sum fold_right length stage] in *. unfold list_sum in IH. lia.
Qed.

Lemma reading_returns heads input : exists k s, run heads (reading T H hash_new heads input) k s /\ s_result s = Some (read_result heads input).
Proof.
  destruct (returns _ _ (want_of_length heads input) _ _ _ (reading_inv heads input) (run_start _ _ _ _ _ _ _ _)) as (k & s & r & R & E). exists k, s. split; [exact R|]. rewrite E. f_equal. eapply reading_result; eassumption.
Qed.

Lemma archiving_length (fs : smap (list Z)) : length (map (fun f : list Z * list Z => Some (snd f)) fs) = length (no_sizes fs).
Proof. unfold no_sizes. now rewrite !map_length. Qed.

Lemma archiving_outcome (fs : smap (list Z)) : outcome (no_sizes fs) (map (fun f => Some (snd f)) fs) = Ok (Data (as_map fs) (hash_finish (hash_files hash_new fs))).
Proof.
  unfold outcome. destruct (in_dec _ None _) as [J|_]; [apply in_map_iff in J as (? & J & _); discriminate|].
  assert (files (no_sizes fs) (map (fun f => Some (snd f)) fs) = fs) as ->; [|reflexivity]. unfold files, no_sizes. induction fs as [|[p v] l IH]; [reflexivity|]. cbn [map combine fst snd known]. now rewrite IH.
Qed.

Lemma archiving_result (fs : smap (list Z)) k s r : run (no_sizes fs) (archiving T H hash_new fs) k s -> s_result s = Some r ->
  r = Ok (Data (as_map fs) (hash_finish (hash_files hash_new fs))).
Proof. intros R E. rewrite <- archiving_outcome. eapply result; [apply archiving_length|apply archiving_inv|exact R|exact E]. Qed.
Lemma archiving_returns (fs : smap (list Z)) : exists k s, run (no_sizes fs) (archiving T H hash_new fs) k s /\ s_result s = Some (Ok (Data (as_map fs) (hash_finish (hash_files hash_new fs)))).
Proof.
  destruct (returns _ _ (archiving_length fs) _ _ _ (archiving_inv fs) (run_start _ _ _ _ _ _ _ _)) as (k & s & r & R & E). exists k, s. split; [exact R|]. rewrite E. f_equal. eapply archiving_result; eassumption.
Qed.
Lemma archiving_goes_on (fs : smap (list Z)) k s : run (no_sizes fs) (archiving T H hash_new fs) k s -> s_result s = None -> exists s', step (no_sizes fs) s s'.
Proof. intros R E. eapply progress; [apply archiving_length| |exact E]. eapply inv_run; [apply archiving_length|apply archiving_inv|exact R]. Qed.
End Runs.
