(** Proof of C79: the evaluation of C68 and the one that says when time is over. *)
From Coq Require Import String.
From Verif Require Import Base StringCompactionModel LinkedModel LinkedSpec DocModel DiffSpec ArchiveModel JsonModel IntfModel GenModel GenSpec CodeSpec ApiModel TypeSpec ReadModel RunModel RunSpec SoundSpec.

Local Notation text := (list Z).
Local Notation "! s" := (txt s%string) (at level 0, s at level 0).

Definition alike {A} (m m' : M A) : Prop := forall w, m' w = m w \/ (m w = Err /\ m' w = Panic).
Lemma alike_refl {A} (m : M A) : alike m m. Proof. intros w. left. reflexivity. Qed.
Lemma alike_seq {A B} (m m' : M A) (f f' : A -> M B) : alike m m' -> (forall a, alike (f a) (f' a)) -> alike (seq m f) (seq m' f').
Proof.
  intros H F w. unfold seq. destruct (H w) as [->|[-> ->]]; [|right; split; reflexivity]. destruct (m w) as [[a w']| |]; [apply F|left; reflexivity|left; reflexivity].
Qed.

Section Run.
Variable p : list CodeSpec.item.
Variable iter : forall A, hmap A -> hmap A.
Variable r : root_obj.
Variable told : effect -> bool.
Section Step.
Variable ev ev' : text -> env -> expr -> M val.
Hypothesis A : forall n G e, alike (ev n G e) (ev' n G e).

Ltac step := first [apply alike_refl|apply A|apply alike_seq; [|let a := fresh "a" in intros a; cbn beta]].
Lemma each_alike n G es : alike (each ev n G es) (each ev' n G es).
Proof. induction es as [|e es IH]; cbn [each]; [apply alike_refl|]. step; [apply A|]. step; [exact IH|apply alike_refl]. Qed.
Lemma lets_alike n ss : forall G, alike (lets ev n G ss) (lets ev' n G ss).
Proof.
  induction ss as [|s ss IH]; intros G; cbn [lets]; [apply alike_refl|]. destruct s as [m q e|e].
  - step; [apply A|]. destruct (bound n q a); [apply IH|apply alike_refl].
  - step; [apply A|apply IH].
Qed.
Lemma enter_alike n g self args : alike (enter ev n g self args) (enter ev' n g self args).
Proof. unfold enter. apply alike_seq; [apply lets_alike|]. intros G. destruct (f_value g); [|apply alike_refl]. apply alike_seq; [apply A|]. intros v. apply alike_refl. Qed.
Lemma apply_alike g x : alike (apply ev g x) (apply ev' g x).
Proof. unfold apply. destruct g; try apply alike_refl. apply A. Qed.
Lemma holder_alike a c xs f vs : alike (holder_fn (apply ev) a c xs f vs) (holder_fn (apply ev') a c xs f vs).
Proof.
  unfold holder_fn. destruct (eqb_bytes f !"unwrap"); [apply alike_refl|]. destruct (eqb_bytes f !"map"); [|apply alike_refl].
  destruct xs as [|x [|y xs]]; try apply alike_refl. destruct vs as [|g [|h vs]]; try apply alike_refl. apply alike_seq; [apply apply_alike|]. intros v. apply alike_refl.
Qed.
Lemma converted_alike g n q : alike (converted p ev g n q) (converted p ev' g n q).
Proof. unfold converted. destruct (fn_named _ _); [|apply alike_refl]. apply alike_seq; [apply enter_alike|]. intros v. apply alike_refl. Qed.
Lemma change_alike n l key items d o : alike (change_fn p r ev n l key items d o) (change_fn p r ev' n l key items d o).
Proof. unfold change_fn. destruct o; try apply alike_refl; (destruct (room _); [|apply alike_refl]; apply alike_seq; [apply alike_refl|]; intros u; apply converted_alike). Qed.
Definition both (o o' : option (M val)) : Prop := match o, o' with Some m, Some m' => alike m m' | None, None => True | _, _ => False end.
Lemma both_if (b : bool) m m' o o' : alike m m' -> both o o' -> both (if b then Some m else o) (if b then Some m' else o').
Proof. destruct b; [intros H _; exact H|intros _ H; exact H]. Qed.
Lemma guard_alike g item x f vs : both (guard_fn p r ev g item x f vs) (guard_fn p r ev' g item x f vs).
Proof.
  unfold guard_fn. destruct item as [n|]; [|exact Logic.I]. destruct x as [| | | | | | | |q| |]; try exact Logic.I. destruct q as [| |l s|t|c|l key items d]; try exact Logic.I.
  - destruct vs as [|v [|v' vs]]; [|destruct v; try exact Logic.I|destruct v; exact Logic.I].
    + apply both_if; [apply alike_refl|exact Logic.I].
    + apply both_if; [|exact Logic.I]. intros w. destruct (clist_value c (Z.to_nat n0)); [apply converted_alike|left; reflexivity|left; reflexivity].
  - assert (G : forall h e, alike (seq (converted p ev h n (PItem (l ++ [(key, fst e)]) (snd e))) (fun v => ret (some v))) (seq (converted p ev' h n (PItem (l ++ [(key, fst e)]) (snd e))) (fun v => ret (some v)))).
    { intros h e. apply alike_seq; [apply converted_alike|]. intros v. apply alike_refl. }
    cbv zeta. destruct (if eqb_bytes g !"MListMut" then list_op_of f vs else None) as [o|]; [apply change_alike|].
    destruct vs as [|v [|v' vs]]; [|destruct v; try exact Logic.I|destruct v; exact Logic.I].
    + repeat (apply both_if; [try apply alike_refl; try (destruct (hd_error _); [apply G|apply alike_refl])|]). exact Logic.I.
    + repeat (apply both_if; [try apply alike_refl; try (destruct (mlist_item _ _ _); [apply (G _ (_, _))|apply alike_refl])|]). exact Logic.I.
Qed.
Lemma assoc_alike n f vs : alike (assoc p iter r told ev n f vs) (assoc p iter r told ev' n f vs).
Proof.
  unfold assoc. destruct (core_fn n f); [apply alike_refl|]. destruct (one_of guards n); [apply alike_refl|]. destruct (one_of holders n); [apply alike_refl|].
  destruct (eqb_bytes n !"Box"); [apply alike_refl|]. destruct (eqb_bytes n !"RootObjectPtr"); [apply alike_refl|]. destruct (fn_named _ _); [apply enter_alike|apply alike_refl].
Qed.
Lemma own_alike n v f vs : alike (own_method p ev n v f vs) (own_method p ev' n v f vs).
Proof. unfold own_method. destruct (fn_named _ _); [apply enter_alike|apply alike_refl]. Qed.
Lemma method_alike f vs : forall v, alike (method_of p r ev v f vs) (method_of p r ev' v f vs).
Proof.
  fix IH 1. intros v. destruct v as [|n|c|a b|l|a c xs|a fs|g item x|q|n x e G|x]; cbn [method_of]; try apply alike_refl.
  - destruct (one_of holders a); [apply holder_alike|apply own_alike].
  - apply own_alike.
  - pose proof (guard_alike g item x f vs) as B. destruct (guard_fn p r ev g item x f vs), (guard_fn p r ev' g item x f vs); cbn [both] in B; [exact B|contradiction B|contradiction B|apply IH].
Qed.
Lemma step_alike n G e : alike (eval_step p iter r told ev n G e) (eval_step p iter r told ev' n G e).
Proof.
  destruct e as [x|s|k|a c|e args|e f args|e x|e|e|a b|a xs|mv x e|e arms|q e a b|m es|e|a i|es|e]; cbn [eval_step]; try apply alike_refl; try apply A.
  - destruct e; try apply alike_refl.
    + destruct (eqb_bytes _ _); [|apply alike_refl]. apply alike_seq; [apply each_alike|]. intros vs. apply alike_refl.
    + apply alike_seq; [apply each_alike|]. intros vs. apply assoc_alike.
  - apply alike_seq; [apply A|]. intros v. apply alike_seq; [apply each_alike|]. intros vs. apply method_alike.
  - apply alike_seq; [apply A|]. intros v. apply alike_refl.
  - apply alike_seq; [apply A|]. intros v. apply alike_refl.
  - apply alike_seq; [apply A|]. intros v. apply alike_seq; [apply A|]. intros u. apply alike_refl.
  - apply alike_seq; [apply A|]. intros v. destruct (arm_for n v arms) as [[H e']|]; [apply A|apply alike_refl].
  - apply alike_seq; [apply A|]. intros v. destruct (bound n q v); apply A.
  - apply alike_seq; [apply A|]. intros v. apply alike_seq; [apply A|]. intros u. apply alike_refl.
  - apply alike_seq; [apply each_alike|]. intros vs. apply alike_refl.
Qed.
End Step.
Lemma eval_timed k : eval p iter r told k = timed p iter r told Err k.
Proof. induction k as [|k IH]; [reflexivity|]. cbn [eval timed]. rewrite IH. reflexivity. Qed.
Lemma timed_alike k : forall n G e, alike (eval p iter r told k n G e) (timed p iter r told Panic k n G e).
Proof. induction k as [|k IH]; intros n G e; [intros w; right; split; reflexivity|]. cbn [eval timed]. apply step_alike, IH. Qed.
End Run.
