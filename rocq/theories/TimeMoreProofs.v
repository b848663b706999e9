(** Proof of C80: what is evaluated does not change with more time. *)
From Coq Require Import String.
From Verif Require Import Base StringCompactionModel LinkedModel LinkedSpec DocModel DiffSpec ArchiveModel JsonModel IntfModel GenModel GenSpec CodeSpec ApiModel TypeSpec ReadModel RunModel RunSpec SoundSpec.

Local Notation text := (list Z).
Local Notation "! s" := (txt s%string) (at level 0, s at level 0).

Definition later {A} (m m' : M A) : Prop := forall w, m' w = m w \/ m w = Err.
Lemma later_refl {A} (m : M A) : later m m. Proof. intros w. left. reflexivity. Qed.
Lemma later_seq {A B} (m m' : M A) (f f' : A -> M B) : later m m' -> (forall a, later (f a) (f' a)) -> later (seq m f) (seq m' f').
Proof.
  intros H F w. unfold seq. destruct (H w) as [->|E]; [|rewrite E; right; reflexivity]. destruct (m w) as [[a w']| |]; [apply F|left; reflexivity|left; reflexivity].
Qed.

Section Run.
Variable p : list CodeSpec.item.
Variable iter : forall A, hmap A -> hmap A.
Variable r : root_obj.
Variable told : effect -> bool.
Section Step.
Variable ev ev' : text -> env -> expr -> M val.
Hypothesis A : forall n G e, later (ev n G e) (ev' n G e).

Ltac step := first [apply later_refl|apply A|apply later_seq; [|let a := fresh "a" in intros a; cbn beta]].
Lemma each_later n G es : later (each ev n G es) (each ev' n G es).
Proof. induction es as [|e es IH]; cbn [each]; [apply later_refl|]. step; [apply A|]. step; [exact IH|apply later_refl]. Qed.
Lemma lets_later n ss : forall G, later (lets ev n G ss) (lets ev' n G ss).
Proof.
  induction ss as [|s ss IH]; intros G; cbn [lets]; [apply later_refl|]. destruct s as [m q e|e].
  - step; [apply A|]. destruct (bound n q a); [apply IH|apply later_refl].
  - step; [apply A|apply IH].
Qed.
Lemma enter_later n g self args : later (enter ev n g self args) (enter ev' n g self args).
Proof. unfold enter. apply later_seq; [apply lets_later|]. intros G. destruct (f_value g); [|apply later_refl]. apply later_seq; [apply A|]. intros v. apply later_refl. Qed.
Lemma apply_later g x : later (apply ev g x) (apply ev' g x).
Proof. unfold apply. destruct g; try apply later_refl. apply A. Qed.
Lemma holder_later a c xs f vs : later (holder_fn (apply ev) a c xs f vs) (holder_fn (apply ev') a c xs f vs).
Proof.
  unfold holder_fn. destruct (eqb_bytes f !"unwrap"); [apply later_refl|]. destruct (eqb_bytes f !"map"); [|apply later_refl].
  destruct xs as [|x [|y xs]]; try apply later_refl. destruct vs as [|g [|h vs]]; try apply later_refl. apply later_seq; [apply apply_later|]. intros v. apply later_refl.
Qed.
Lemma converted_later g n q : later (converted p ev g n q) (converted p ev' g n q).
Proof. unfold converted. destruct (fn_named _ _); [|apply later_refl]. apply later_seq; [apply enter_later|]. intros v. apply later_refl. Qed.
Lemma change_later n l key items d o : later (change_fn p r ev n l key items d o) (change_fn p r ev' n l key items d o).
Proof. unfold change_fn. destruct o; try apply later_refl; (destruct (room _); [|apply later_refl]; apply later_seq; [apply later_refl|]; intros u; apply converted_later). Qed.
Definition both (o o' : option (M val)) : Prop := match o, o' with Some m, Some m' => later m m' | None, None => True | _, _ => False end.
Lemma both_if (b : bool) m m' o o' : later m m' -> both o o' -> both (if b then Some m else o) (if b then Some m' else o').
Proof. destruct b; [intros H _; exact H|intros _ H; exact H]. Qed.
Lemma guard_later g item x f vs : both (guard_fn p r ev g item x f vs) (guard_fn p r ev' g item x f vs).
Proof.
  unfold guard_fn. destruct item as [n|]; [|exact Logic.I]. destruct x as [| | | | | | | |q| |]; try exact Logic.I. destruct q as [| |l s|t|c|l key items d]; try exact Logic.I.
  - destruct vs as [|v [|v' vs]]; [|destruct v; try exact Logic.I|destruct v; exact Logic.I].
    + apply both_if; [apply later_refl|exact Logic.I].
    + apply both_if; [|exact Logic.I]. intros w. destruct (clist_value c (Z.to_nat n0)); [apply converted_later|left; reflexivity|left; reflexivity].
  - assert (G : forall h e, later (seq (converted p ev h n (PItem (l ++ [(key, fst e)]) (snd e))) (fun v => ret (some v))) (seq (converted p ev' h n (PItem (l ++ [(key, fst e)]) (snd e))) (fun v => ret (some v)))).
    { intros h e. apply later_seq; [apply converted_later|]. intros v. apply later_refl. }
    cbv zeta. destruct (if eqb_bytes g !"MListMut" then list_op_of f vs else None) as [o|]; [apply change_later|].
    destruct vs as [|v [|v' vs]]; [|destruct v; try exact Logic.I|destruct v; exact Logic.I].
    + repeat (apply both_if; [try apply later_refl; try (destruct (hd_error _); [apply G|apply later_refl])|]). exact Logic.I.
    + repeat (apply both_if; [try apply later_refl; try (destruct (mlist_item _ _ _); [apply (G _ (_, _))|apply later_refl])|]). exact Logic.I.
Qed.
Lemma assoc_later n f vs : later (assoc p iter r told ev n f vs) (assoc p iter r told ev' n f vs).
Proof.
  unfold assoc. destruct (core_fn n f); [apply later_refl|]. destruct (one_of guards n); [apply later_refl|]. destruct (one_of holders n); [apply later_refl|].
  destruct (eqb_bytes n !"Box"); [apply later_refl|]. destruct (eqb_bytes n !"RootObjectPtr"); [apply later_refl|]. destruct (fn_named _ _); [apply enter_later|apply later_refl].
Qed.
Lemma own_later n v f vs : later (own_method p ev n v f vs) (own_method p ev' n v f vs).
Proof. unfold own_method. destruct (fn_named _ _); [apply enter_later|apply later_refl]. Qed.
Lemma method_later f vs : forall v, later (method_of p r ev v f vs) (method_of p r ev' v f vs).
Proof.
  fix IH 1. intros v. destruct v as [|n|c|a b|l|a c xs|a fs|g item x|q|n x e G|x]; cbn [method_of]; try apply later_refl.
  - destruct (one_of holders a); [apply holder_later|apply own_later].
  - apply own_later.
  - pose proof (guard_later g item x f vs) as B. destruct (guard_fn p r ev g item x f vs), (guard_fn p r ev' g item x f vs); cbn [both] in B; [exact B|contradiction B|contradiction B|apply IH].
Qed.
Lemma step_later n G e : later (eval_step p iter r told ev n G e) (eval_step p iter r told ev' n G e).
Proof.
  destruct e as [x|s|k|a c|e args|e f args|e x|e|e|a b|a xs|mv x e|e arms|q e a b|m es|e|a i|es|e]; cbn [eval_step]; try apply later_refl; try apply A.
  - destruct e; try apply later_refl.
    + destruct (eqb_bytes _ _); [|apply later_refl]. apply later_seq; [apply each_later|]. intros vs. apply later_refl.
    + apply later_seq; [apply each_later|]. intros vs. apply assoc_later.
  - apply later_seq; [apply A|]. intros v. apply later_seq; [apply each_later|]. intros vs. apply method_later.
  - apply later_seq; [apply A|]. intros v. apply later_refl.
  - apply later_seq; [apply A|]. intros v. apply later_refl.
  - apply later_seq; [apply A|]. intros v. apply later_seq; [apply A|]. intros u. apply later_refl.
  - apply later_seq; [apply A|]. intros v. destruct (arm_for n v arms) as [[H e']|]; [apply A|apply later_refl].
  - apply later_seq; [apply A|]. intros v. destruct (bound n q v); apply A.
  - apply later_seq; [apply A|]. intros v. apply later_seq; [apply A|]. intros u. apply later_refl.
  - apply later_seq; [apply each_later|]. intros vs. apply later_refl.
Qed.
End Step.
Lemma eval_later k : forall n G e, later (eval p iter r told k n G e) (eval p iter r told (S k) n G e).
Proof. induction k as [|k IH]; intros n G e; [intros w; right; reflexivity|]. change (eval p iter r told (S (S k))) with (eval_step p iter r told (eval p iter r told (S k))). cbn [eval] in IH |- *. apply step_later, IH. Qed.
Lemma enter_more k n f self args w : enter (eval p iter r told k) n f self args w <> Err -> forall i, enter (eval p iter r told (i + k)) n f self args w = enter (eval p iter r told k) n f self args w.
Proof.
  intros N. induction i as [|i IH]; [reflexivity|]. destruct (enter_later _ _ (eval_later (i + k)) n f self args w) as [E|E]; [rewrite <- IH; exact E|]. rewrite IH in E. contradiction.
Qed.
End Run.
