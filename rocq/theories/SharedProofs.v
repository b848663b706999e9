(** Proof of C78: evaluation without functions that take [&mut self]. *)
From Coq Require Import String.
From Verif Require Import Base StringCompactionModel StringCompactionProofs LinkedModel LinkedSpec DocModel DiffSpec DiffProofs ArchiveModel JsonModel IntfModel GenModel GenSpec GenProofs CodeSpec ApiModel TypeSpec ReadModel RunModel RunSpec SharedSpec.

Local Notation text := (list Z).
Local Notation "! s" := (txt s%string) (at level 0, s at level 0).

(* ------------------------------------------------------------------ *)
(** * The functions that are shut *)

Lemma shut_name f : f_name (shut_fn f) = f_name f.
Proof. unfold shut_fn. destruct (f_self f); reflexivity. Qed.
Lemma own_shared p n : own_fns (shared p) n = map shut_fn (own_fns p n).
Proof. unfold own_fns, shared. induction p as [|i l IH]; [reflexivity|]. cbn [map flat_map]. rewrite IH, map_app. f_equal. destruct i; try reflexivity. cbn [shut_item]. destruct (eqb_bytes n0 n); reflexivity. Qed.
Lemma trait_shared p n : trait_fns (shared p) n = map shut_fn (trait_fns p n).
Proof. unfold trait_fns, shared. induction p as [|i l IH]; [reflexivity|]. cbn [map flat_map]. rewrite IH, map_app. f_equal. destruct i; try reflexivity. cbn [shut_item]. destruct (eqb_bytes n0 n); reflexivity. Qed.
Lemma variant_shared p n v : is_variant (shared p) n v = is_variant p n v.
Proof. unfold is_variant, shared. induction p as [|i l IH]; [reflexivity|]. cbn [map existsb]. rewrite IH. f_equal. destruct i; reflexivity. Qed.
Lemma named_shared f fns : fn_named f (map shut_fn fns) = option_map shut_fn (fn_named f fns).
Proof. unfold fn_named. induction fns as [|g l IH]; [reflexivity|]. cbn [map find]. rewrite shut_name. destruct (eqb_bytes (f_name g) f); [reflexivity|exact IH]. Qed.

(* ------------------------------------------------------------------ *)
(** * The same, or nothing *)

Definition below {A} (m m' : M A) : Prop := forall w, m w = Err \/ m w = m' w.
Lemma below_refl {A} (m : M A) : below m m. Proof. intros w. right. reflexivity. Qed.
Lemma below_stuck {A} (m : M A) : below stuck m. Proof. intros w. left. reflexivity. Qed.
Lemma below_seq {A B} (m m' : M A) (f f' : A -> M B) : below m m' -> (forall a, below (f a) (f' a)) -> below (seq m f) (seq m' f').
Proof.
  intros H F w. unfold seq. destruct (H w) as [->| ->]; [left; reflexivity|]. destruct (m' w) as [[a w1]| |]; [apply F|left; reflexivity|right; reflexivity].
Qed.

Section Below.
Variable p : list CodeSpec.item.
Variable iter : forall A, hmap A -> hmap A.
Variable r : root_obj.
Variable told : effect -> bool.
Variable ev ev' : text -> env -> expr -> M val.
Hypothesis E : forall n G e, below (ev n G e) (ev' n G e).

Lemma below_lets n ss : forall G, below (lets ev n G ss) (lets ev' n G ss).
Proof.
  induction ss as [|s ss IH]; intros G; cbn [lets]; [apply below_refl|]. destruct s as [m q e|e].
  - apply below_seq; [apply E|]. intros v. destruct (bound n q v); [apply IH|apply below_refl].
  - apply below_seq; [apply E|]. intros _. apply IH.
Qed.
Lemma below_enter n g self args : below (enter ev n g self args) (enter ev' n g self args).
Proof.
  unfold enter. apply below_seq; [apply below_lets|]. intros G. destruct (f_value g); [|apply below_refl]. apply below_seq; [apply E|]. intros v. apply below_refl.
Qed.
Hypothesis N : forall n G x, ev n G (EField (ENum 0) x) = stuck.
Lemma below_shut n g self args : below (enter ev n (shut_fn g) self args) (enter ev' n g self args).
Proof.
  unfold shut_fn. destruct (f_self g) eqn:S; try apply below_enter. intros w. left. unfold enter, seq. cbn [f_lets f_value lets]. unfold ret at 1. rewrite N. reflexivity.
Qed.
Lemma below_apply g x : below (apply ev g x) (apply ev' g x).
Proof. destruct g; try apply below_refl. apply E. Qed.
Lemma below_converted g n q : below (converted (shared p) ev g n q) (converted p ev' g n q).
Proof.
  unfold converted. rewrite trait_shared, named_shared. destruct (fn_named _ (trait_fns p n)) as [f|]; cbn [option_map]; [|apply below_refl].
  apply below_seq; [apply below_shut|]. intros v. apply below_refl.
Qed.
Lemma below_change n l key items d o : below (change_fn (shared p) r ev n l key items d o) (change_fn p r ev' n l key items d o).
Proof.
  unfold change_fn. destruct o; try apply below_refl.
  all: destruct (room _); [|apply below_refl]; apply below_seq; [apply below_refl|]; intros _; apply below_converted.
Qed.
Lemma below_guard g item x f vs : match guard_fn (shared p) r ev g item x f vs, guard_fn p r ev' g item x f vs with Some m, Some m' => below m m' | None, None => True | _, _ => False end.
Proof.
  unfold guard_fn. destruct item as [n|]; [|exact Logic.I]. destruct x as [| | | | | | | |q| |]; try exact Logic.I. destruct q as [| | | |c|l key items d]; try exact Logic.I.
  - destruct vs as [|v vs]; [destruct (eqb_bytes f _); [apply below_refl|exact Logic.I]|]. destruct v; try exact Logic.I. destruct vs as [|v vs]; [|exact Logic.I].
    destruct (_ && _); [|exact Logic.I]. intros w. destruct (clist_value c _); [apply below_converted|left; reflexivity|right; reflexivity].
  - destruct (if eqb_bytes g !"MListMut" then list_op_of f vs else None) as [o|]; [apply below_change|].
    assert (Giv : forall h (e : Z * spot), below (seq (converted (shared p) ev h n (PItem (l ++ [(key, fst e)]) (snd e))) (fun v => ret (some v))) (seq (converted p ev' h n (PItem (l ++ [(key, fst e)]) (snd e))) (fun v => ret (some v)))).
    { intros h e. apply below_seq; [apply below_converted|]. intros v. apply below_refl. }
    destruct vs as [|v vs].
    + repeat match goal with |- context [if ?b then Some _ else _] => destruct b end; try exact Logic.I; try apply below_refl.
      all: try (destruct (hd_error items) as [e|]; [apply (Giv _ (fst e, (snd e, d)))|apply below_refl]).
      all: destruct (hd_error (rev items)) as [e|]; [apply (Giv _ (fst e, (snd e, d)))|apply below_refl].
    + destruct v; try exact Logic.I. destruct vs as [|v vs]; [|exact Logic.I].
      repeat match goal with |- context [if ?b then Some _ else _] => destruct b end; try exact Logic.I; try apply below_refl.
      all: destruct (mlist_item items d n0) as [s|]; [apply (Giv _ (n0, s))|apply below_refl].
Qed.
Lemma below_assoc n f vs : below (assoc (shared p) iter r told ev n f vs) (assoc p iter r told ev' n f vs).
Proof.
  unfold assoc. destruct (core_fn n f); [apply below_refl|]. destruct (one_of guards n); [apply below_refl|]. destruct (one_of holders n); [apply below_refl|].
  destruct (eqb_bytes n !"Box"); [apply below_refl|]. destruct (eqb_bytes n !"RootObjectPtr"); [apply below_refl|]. rewrite own_shared, trait_shared, <- map_app, named_shared, variant_shared.
  destruct (fn_named f _); cbn [option_map]; [apply below_shut|apply below_refl].
Qed.
Lemma below_own n v f vs : below (own_method (shared p) ev n v f vs) (own_method p ev' n v f vs).
Proof. unfold own_method. rewrite own_shared, named_shared. destruct (fn_named f _); cbn [option_map]; [apply below_shut|apply below_refl]. Qed.
Lemma below_holder a c xs f vs : below (holder_fn (apply ev) a c xs f vs) (holder_fn (apply ev') a c xs f vs).
Proof.
  unfold holder_fn. destruct (eqb_bytes f _); [apply below_refl|]. destruct (eqb_bytes f _); [|apply below_refl].
  destruct xs as [|x xs]; [apply below_refl|]. destruct xs; [|apply below_refl]. destruct vs as [|g vs]; [apply below_refl|]. destruct vs; [|apply below_refl].
  apply below_seq; [apply below_apply|]. intros y. apply below_refl.
Qed.
Lemma below_method f vs v : below (method_of (shared p) r ev v f vs) (method_of p r ev' v f vs).
Proof.
  induction v; cbn [method_of]; try apply below_refl.
  - destruct (one_of holders n); [apply below_holder|apply below_own].
  - apply below_own.
  - pose proof (below_guard g item v f vs) as X. destruct (guard_fn (shared p) r ev g item v f vs), (guard_fn p r ev' g item v f vs); try destruct X; assumption.
Qed.
Lemma below_each n G es : below (each ev n G es) (each ev' n G es).
Proof. induction es as [|e es IH]; cbn [each]; [apply below_refl|]. apply below_seq; [apply E|]. intros v. apply below_seq; [exact IH|]. intros vs. apply below_refl. Qed.
Lemma below_step n G e : below (eval_step (shared p) iter r told ev n G e) (eval_step p iter r told ev' n G e).
Proof.
  destruct e as [x|s|k|a c|h args|e f args|e x|e|e|a b|a xs|m x e|e arms|q e a b|x es|e|a i|es|e]; cbn [eval_step]; try apply below_refl; try apply E.
  - rewrite variant_shared. apply below_refl.
  - destruct h; try apply below_refl.
    + destruct (eqb_bytes x _); [|apply below_refl]. apply below_seq; [apply below_each|]. intros vs. apply below_refl.
    + apply below_seq; [apply below_each|]. intros vs. apply below_assoc.
  - apply below_seq; [apply E|]. intros v. apply below_seq; [apply below_each|]. intros vs. apply below_method.
  - apply below_seq; [apply E|]. intros v. apply below_refl.
  - apply below_seq; [apply E|]. intros v. apply below_refl.
  - apply below_seq; [apply E|]. intros v. apply below_seq; [apply E|]. intros u. apply below_refl.
  - apply below_seq; [apply E|]. intros v. destruct (arm_for n v arms) as [[H e']|]; [apply E|apply below_refl].
  - apply below_seq; [apply E|]. intros v. destruct (bound n q v); apply E.
  - apply below_seq; [apply E|]. intros v. apply below_seq; [apply E|]. intros u. apply below_refl.
  - apply below_seq; [apply below_each|]. intros vs. apply below_refl.
Qed.
End Below.

Lemma eval_field p iter r told k n G x : eval p iter r told k n G (EField (ENum 0) x) = stuck.
Proof. destruct k as [|[|k]]; reflexivity. Qed.
Lemma eval_below p iter r told k : forall n G e, below (eval (shared p) iter r told k n G e) (eval p iter r told k n G e).
Proof. induction k as [|k IH]; intros n G e; cbn [eval]; [apply below_refl|]. apply below_step; [exact IH|]. intros n' G' x. apply eval_field. Qed.

Lemma evals_below p iter r told G e w R : evals (shared p) iter r told G e w R -> R <> Err -> evals p iter r told G e w R.
Proof.
  intros (k0 & H) N. exists k0. intros k L. destruct (eval_below p iter r told k [] G e w) as [X|X]; rewrite (H k L) in X; [contradiction|symmetry; exact X].
Qed.

(* ------------------------------------------------------------------ *)
(** * Nothing is recorded *)

Definition calmly {A} (m : M A) (P : A -> Prop) : Prop := forall w a w', m w = Ok (a, w') -> w' = w /\ P a.
Lemma calm_ret {A} (a : A) (P : A -> Prop) : P a -> calmly (ret a) P.
Proof. intros H w b w' X. unfold ret in X. apply Ok_inj in X. apply pair_equal_spec in X as [<- <-]. split; [reflexivity|exact H]. Qed.
Lemma calm_stuck {A} (P : A -> Prop) : calmly stuck P. Proof. intros w a w' X. discriminate X. Qed.
Lemma calm_panic {A} (P : A -> Prop) : calmly panic P. Proof. intros w a w' X. discriminate X. Qed.
Lemma calm_seq {A B} (m : M A) (f : A -> M B) (P : A -> Prop) (Q : B -> Prop) : calmly m P -> (forall a, P a -> calmly (f a) Q) -> calmly (seq m f) Q.
Proof.
  intros H F w b w' X. unfold seq in X. destruct (m w) as [[a w1]| |] eqn:Em; [|discriminate X..]. destruct (H w a w1 Em) as [-> Pa]. exact (F a Pa w b w' X).
Qed.
Lemma calm_here {A} (o : option A) (P : A -> Prop) : (forall a, o = Some a -> P a) -> calmly (here o) P.
Proof. intros H. destruct o as [a|]; [apply calm_ret, H; reflexivity|apply calm_stuck]. Qed.

Lemma still_some v : still v -> still (some v).
Proof. intros H. apply still_make. apply Forall_cons; [exact H|apply Forall_nil]. Qed.
Lemma still_none : still none. Proof. apply still_make, Forall_nil. Qed.
Lemma still_opt {A} (f : A -> val) o : (forall a, still (f a)) -> still (of_opt f o).
Proof. intros H. destruct o; [apply still_some, H|apply still_none]. Qed.
Lemma still_qv {A} (f : A -> val) q : (forall a, still (f a)) -> still (of_qv f q).
Proof. intros H. destruct q; apply still_make; repeat apply Forall_cons; try apply Forall_nil. apply H. Qed.
Lemma still_stamp t : forall v, still v -> still (stamp t v).
Proof.
  induction t as [n|n t IH|t IH|t IH|t IH|a IHa b IHb|t IH]; intros v H; try exact H.
  assert (X : still (match v with VMake a c [v] => VMake a c [stamp t v] | _ => v end)).
  { destruct v as [| | | | |a c l| | | | |]; try exact H. destruct l as [|v l]; [exact H|]. destruct l; [|exact H]. inversion H as [| | | | |? ? ? F| | | | |]; subst. apply Forall_inv in F.
    apply still_make. apply Forall_cons; [apply IH; exact F|apply Forall_nil]. }
  destruct t; cbn [stamp]; try exact X. destruct v; try exact X. inversion H; subst. apply still_guard; assumption.
Qed.
Lemma still_hget x G v : still_env G -> hget x G = Some v -> still v.
Proof. intros H E. apply hget_in in E. unfold still_env in H. rewrite Forall_forall in H. exact (H _ E). Qed.
Lemma still_bound n q : forall v H, still v -> bound n q v = Some H -> still_env H.
Proof.
  induction q as [x| |s|k|a c|a c x|q1 IH1 q2 IH2]; intros v H Sv E; cbn [bound] in E.
  - apply Some_inj in E as <-. apply Forall_cons; [exact Sv|apply Forall_nil].
  - apply Some_inj in E as <-. apply Forall_nil.
  - destruct v as [| |c| | | | | | | |]; try discriminate E. destruct c as [| | |s0| | |]; try discriminate E. destruct (eqb_bytes s s0); [|discriminate E]. apply Some_inj in E as <-. apply Forall_nil.
  - destruct v; try discriminate E. destruct (k =? n0); [|discriminate E]. apply Some_inj in E as <-. apply Forall_nil.
  - destruct v as [| | | | |a' c' l| | | | |]; try discriminate E. destruct l; [|discriminate E]. destruct (_ && _); [|discriminate E]. apply Some_inj in E as <-. apply Forall_nil.
  - destruct v as [| | | | |a' c' l| | | | |]; try discriminate E. destruct l as [|v l]; [discriminate E|]. destruct l; [|discriminate E]. destruct (_ && _); [|discriminate E]. apply Some_inj in E as <-.
    inversion Sv as [| | | | |? ? ? F| | | | |]; subst. apply Forall_cons; [exact (Forall_inv F)|apply Forall_nil].
  - destruct v; try discriminate E. destruct (bound n q1 v1) as [G1|] eqn:E1; [|discriminate E]. destruct (bound n q2 v2) as [G2|] eqn:E2; [|discriminate E]. apply Some_inj in E as <-.
    inversion Sv as [| | |? ? S1 S2| | | | | | |]; subst. apply Forall_app. split; [exact (IH1 _ _ S1 E1)|exact (IH2 _ _ S2 E2)].
Qed.
Lemma still_arm n v arms H e : still v -> arm_for n v arms = Some (H, e) -> still_env H /\ In e (map snd arms).
Proof.
  intros Sv. induction arms as [|[q e'] arms IH]; cbn [arm_for]; [discriminate|]. destruct (bound n q v) as [G|] eqn:B; intros E.
  - apply Some_inj in E. apply pair_equal_spec in E as [<- <-]. split; [eapply still_bound; eassumption|left; reflexivity].
  - destruct (IH E) as [X Y]. split; [exact X|right; exact Y].
Qed.
Lemma still_fields G xs : forall fs, still_env G -> fields_of G xs = Some fs -> still_env fs.
Proof.
  induction xs as [|x xs IH]; cbn [fields_of]; intros fs H E; [apply Some_inj in E as <-; apply Forall_nil|].
  destruct (hget x G) as [v|] eqn:Ev; [|discriminate E]. destruct (fields_of G xs) as [gs|] eqn:Ef; [|discriminate E]. apply Some_inj in E as <-.
  apply Forall_cons; [eapply still_hget; eassumption|apply IH; [exact H|reflexivity]].
Qed.

(** which of the functions of dochy_core change something *)
Definition acts (f : prim) : bool := match f with FMutable _ | FSet _ | FOpen | FSetRef | FSetEnum => true | _ => false end.
Lemma acts_changing m f g : core_fn m f = Some g -> acts g = true -> changing m f = true.
Proof.
  assert (X : forallb (fun e => forallb (fun x => negb (acts (snd x)) || changing (fst e) (fst x)) (snd e)) modules = true) by (vm_compute; reflexivity).
  unfold core_fn. intros H A. destruct (hget m modules) as [fs|] eqn:M; [|discriminate H]. apply hget_in in M. apply hget_in in H.
  rewrite forallb_forall in X. specialize (X _ M). cbn [fst snd] in X. rewrite forallb_forall in X. specialize (X _ H). cbn [fst snd] in X. rewrite A in X. exact X.
Qed.
Lemma calm_core iter r told g args : acts g = false -> calmly (core_do iter r told g args) still.
Proof.
  intros A w v w' E. unfold core_do in E.
  destruct g; try discriminate A; clear A;
    repeat match type of E with context [match ?x with _ => _ end] => is_var x; destruct x; try discriminate E end;
    try (apply Ok_inj in E; apply pair_equal_spec in E as [<- <-]; split; [reflexivity|]).
  all: try (apply still_opt; intros a; apply still_qv; intros b; apply still_of).
  all: try (apply still_opt; intros a; apply still_ptr).
  all: try (apply still_opt; intros a; apply still_opt; intros b; apply still_ptr).
  all: try (apply still_opt; intros a; apply still_qv; intros b; apply still_of).
  all: try (apply still_opt; intros a; apply still_pair; apply still_of).
  destruct (spot_ref r s s0) as [o| |]; cbn [bind] in E; [|discriminate E..]. apply Ok_inj in E; apply pair_equal_spec in E as [<- <-]. split; [reflexivity|].
  apply still_opt. intros a. apply still_qv. intros b. apply still_ptr.
Qed.

Lemma zget_in {A} (l : list A) i x : zget l i = Some x -> In x l.
Proof. unfold zget. destruct (i <? 0); [discriminate|]. apply nth_error_In. Qed.

Definition quiet_stmt (n : text) (s : stmt) : bool := match s with SLet _ _ e | SExpr e => quiet n e end.
Definition quiet_fn (n : text) (f : fn) : Prop := forallb (quiet_stmt n) (f_lets f) = true /\ match f_value f with Some e => quiet n e = true | None => True end.

Section Calm.
Variable q : list CodeSpec.item.
Variable iter : forall A, hmap A -> hmap A.
Variable r : root_obj.
Variable told : effect -> bool.
Hypothesis Q : forall n f, In f (own_fns q n ++ trait_fns q n) -> quiet_fn n f.

Section CalmStep.
Variable ev : text -> env -> expr -> M val.
Hypothesis E : forall n G e, still_env G -> quiet n e = true -> calmly (ev n G e) still.

Lemma calm_lets n ss : forall G, still_env G -> forallb (quiet_stmt n) ss = true -> calmly (lets ev n G ss) still_env.
Proof.
  induction ss as [|s ss IH]; intros G HG H; cbn [lets]; [apply calm_ret, HG|]. cbn [forallb] in H. apply andb_prop in H as [H1 H2]. destruct s as [m pt e|e]; cbn [quiet_stmt] in H1.
  - eapply calm_seq; [apply E; assumption|]. intros v Sv. destruct (bound n pt v) as [G'|] eqn:B; [|apply calm_stuck]. apply IH; [|exact H2]. apply Forall_app. split; [eapply still_bound; eassumption|exact HG].
  - eapply calm_seq; [apply E; assumption|]. intros v Sv. apply IH; assumption.
Qed.
Lemma still_combine {A} (xs : list A) (f : A -> text) vs : Forall still vs -> still_env (combine (map f xs) vs).
Proof.
  revert vs. induction xs as [|x xs IH]; intros vs H; [apply Forall_nil|]. destruct vs as [|v vs]; [apply Forall_nil|]. cbn [map combine]. inversion H; subst. apply Forall_cons; [assumption|apply IH; assumption].
Qed.
Lemma calm_enter n g self args : quiet_fn n g -> match self with Some v => still v | None => True end -> Forall still args -> calmly (enter ev n g self args) still.
Proof.
  intros [H1 H2] Hs Ha. unfold enter. eapply calm_seq.
  - apply calm_lets; [|exact H1]. apply Forall_app. split; [destruct self; [apply Forall_cons; [exact Hs|apply Forall_nil]|apply Forall_nil]|apply still_combine, Ha].
  - intros G HG. destruct (f_value g) as [e|]; [|apply calm_ret, still_unit]. eapply calm_seq; [apply E; assumption|]. intros v Sv. apply calm_ret. destruct (f_ret g); [apply still_stamp|]; exact Sv.
Qed.
Lemma fn_named_in f fns g : fn_named f fns = Some g -> In g fns.
Proof. unfold fn_named. intros H. apply find_some in H. exact (proj1 H). Qed.
Lemma calm_own n v f vs : still v -> Forall still vs -> calmly (own_method q ev n v f vs) still.
Proof.
  intros Sv Sa. unfold own_method. destruct (fn_named f (own_fns q n)) as [g|] eqn:F; [|apply calm_stuck]. apply calm_enter; [|exact Sv|exact Sa].
  apply Q, in_or_app. left. eapply fn_named_in, F.
Qed.
Lemma calm_apply g x : still g -> still x -> calmly (apply ev g x) still.
Proof.
  intros Sg Sx. destruct g; try apply calm_stuck. inversion Sg; subst. cbn [apply]. apply E; [|assumption]. apply Forall_cons; assumption.
Qed.
Lemma calm_converted g n pt : g <> !"MListMut" -> calmly (converted q ev g n pt) still.
Proof.
  intros Ng. unfold converted. destruct (fn_named _ (trait_fns q n)) as [f|] eqn:F; [|apply calm_stuck]. eapply calm_seq.
  - apply calm_enter; [|exact Logic.I|apply Forall_cons; [apply still_ptr|apply Forall_nil]]. apply Q, in_or_app. right. eapply fn_named_in, F.
  - intros v Sv. apply calm_ret, still_guard; assumption.
Qed.
Lemma calm_guard g item x f vs m : g <> !"MListMut" -> guard_fn q r ev g item x f vs = Some m -> calmly m still.
Proof.
  intros Ng. unfold guard_fn. destruct item as [n|]; [|discriminate]. destruct x as [| | | | | | | |pt| |]; try discriminate. destruct pt as [| | | |c|l key items d]; try discriminate.
  - destruct vs as [|v vs].
    + destruct (eqb_bytes f _); [|discriminate]. intros X. apply Some_inj in X as <-. apply calm_ret, still_num.
    + destruct v; try discriminate. destruct vs as [|v vs]; [|discriminate]. destruct (_ && _); [|discriminate]. intros X. apply Some_inj in X as <-. intros w a w' X.
      destruct (clist_value c _); [|discriminate X..]. revert X. apply calm_converted. discriminate.
  - replace (eqb_bytes g !"MListMut") with false by (symmetry; destruct (eqb_bytes g !"MListMut") eqn:Y; [apply eqb_bytes_eq in Y; contradiction|reflexivity]).
    assert (Giv : forall h (e : Z * spot), h <> !"MListMut" -> calmly (seq (converted q ev h n (PItem (l ++ [(key, fst e)]) (snd e))) (fun v => ret (some v))) still).
    { intros h e Nh. eapply calm_seq; [apply calm_converted, Nh|]. intros v Sv. apply calm_ret, still_some, Sv. }
    cbn [andb]. intros X. destruct vs as [|v vs].
    + repeat match type of X with context [if ?b then Some _ else _] => destruct b end; try discriminate X; apply Some_inj in X as <-.
      all: try (apply calm_ret; first [apply still_num|apply still_of|apply still_opt; intros e; apply still_num]).
      * destruct (hd_error items) as [e|]; [apply (Giv _ (fst e, (snd e, d))); discriminate|apply calm_ret, still_none].
      * destruct (hd_error (rev items)) as [e|]; [apply (Giv _ (fst e, (snd e, d))); discriminate|apply calm_ret, still_none].
    + destruct v; try discriminate X. destruct vs as [|v vs]; [|discriminate X].
      repeat match type of X with context [if ?b then Some _ else _] => destruct b end; try discriminate X; apply Some_inj in X as <-.
      * destruct (mlist_item items d n0) as [s|]; [apply (Giv _ (n0, s)); discriminate|apply calm_ret, still_none].
      * apply calm_ret, still_of.
Qed.
Lemma calm_assoc n f vs : changing n f = false -> Forall still vs -> calmly (assoc q iter r told ev n f vs) still.
Proof.
  intros C H. unfold assoc. destruct (core_fn n f) as [g|] eqn:F.
  - apply calm_core. destruct (acts g) eqn:A; [|reflexivity]. rewrite (acts_changing n f g F A) in C. discriminate C.
  - destruct (one_of guards n).
    + destruct vs as [|v vs]; [apply calm_stuck|]. destruct vs as [|u vs]; [apply calm_stuck|]. destruct vs; [|apply calm_stuck]. destruct (eqb_bytes f !"new") eqn:Nw; [|apply calm_stuck].
      apply calm_ret, still_guard; [|exact (Forall_inv H)]. intros ->. unfold changing in C. rewrite Nw in C. rewrite (eqb_bytes_refl !"MListMut") in C. cbn [andb] in C. rewrite Bool.orb_true_r in C. discriminate C.
    + destruct (one_of holders n).
      * destruct (eqb_bytes f _); [|apply calm_ret, still_make, H]. destruct vs as [|v vs]; [apply calm_stuck|]. destruct vs; [|apply calm_stuck]. unfold from_qv. destruct v; try apply calm_stuck.
        apply Forall_inv in H. inversion H; subst. destruct (_ || _); apply calm_ret; [apply still_some, still_make; assumption|apply still_none].
      * destruct (eqb_bytes n !"Box"); [|destruct (eqb_bytes n !"RootObjectPtr")].
        -- destruct vs as [|v vs]; [apply calm_stuck|]. destruct vs; [|apply calm_stuck]. apply calm_ret, still_box, (Forall_inv H).
        -- destruct vs as [|v vs]; [apply calm_stuck|]. destruct vs; [|apply calm_stuck]. apply calm_ret, (Forall_inv H).
        -- destruct (fn_named f _) as [g|] eqn:G; [apply calm_enter; [apply Q; eapply fn_named_in, G|exact Logic.I|exact H]|]. destruct (is_variant q n f); [apply calm_ret, still_make, H|apply calm_stuck].
Qed.
Lemma calm_holder a c xs f vs : Forall still xs -> Forall still vs -> calmly (holder_fn (apply ev) a c xs f vs) still.
Proof.
  intros Hx Hv. unfold holder_fn. destruct (eqb_bytes f _).
  { destruct xs as [|x xs]; [apply calm_panic|]. destruct xs; [|apply calm_panic]. apply calm_ret, (Forall_inv Hx). }
  destruct (eqb_bytes f _).
  { destruct xs as [|x xs].
    - destruct vs as [|g vs]; [apply calm_stuck|]. destruct vs; [|apply calm_stuck]. apply calm_ret, still_make, Forall_nil.
    - destruct xs; [|apply calm_stuck]. destruct vs as [|g vs]; [apply calm_stuck|]. destruct vs; [|apply calm_stuck].
      eapply calm_seq; [apply calm_apply; [exact (Forall_inv Hv)|exact (Forall_inv Hx)]|]. intros y Sy. apply calm_ret, still_make. apply Forall_cons; [exact Sy|apply Forall_nil]. }
  destruct (eqb_bytes f _).
  { apply calm_ret. destruct xs as [|x xs]; [apply still_none|]. destruct xs; [apply still_some, (Forall_inv Hx)|apply still_none]. }
  destruct (eqb_bytes f _); [apply calm_ret, still_make, Hx|apply calm_stuck].
Qed.
Lemma calm_method f vs v : still v -> Forall still vs -> calmly (method_of q r ev v f vs) still.
Proof.
  intros Sv Sa. induction v; cbn [method_of]; try apply calm_stuck.
  - destruct c; try apply calm_stuck. destruct (eqb_bytes f _); [apply calm_ret, Sv|apply calm_stuck].
  - inversion Sv; subst. destruct (one_of holders n); [apply calm_holder; assumption|apply calm_own; assumption].
  - apply calm_own; assumption.
  - inversion Sv; subst. destruct (guard_fn q r ev g item v f vs) as [m|] eqn:X; [eapply calm_guard; eassumption|]. apply IHv. assumption.
  - destruct (eqb_bytes f _); [destruct q0; try apply calm_stuck; apply calm_ret, still_ptr|apply calm_stuck].
  - destruct (_ || _); [inversion Sv; subst; apply calm_ret; assumption|apply calm_stuck].
Qed.
Lemma calm_each n G es : still_env G -> forallb (quiet n) es = true -> calmly (each ev n G es) (Forall still).
Proof.
  intros HG. induction es as [|e es IH]; cbn [each forallb]; intros H; [apply calm_ret, Forall_nil|]. apply andb_prop in H as [H1 H2].
  eapply calm_seq; [apply E; assumption|]. intros v Sv. eapply calm_seq; [apply IH, H2|]. intros vs Ss. apply calm_ret. apply Forall_cons; assumption.
Qed.
Lemma calm_step n G e : still_env G -> quiet n e = true -> calmly (eval_step q iter r told ev n G e) still.
Proof.
  intros HG H. destruct e as [x|s|k|a c|h args|e f args|e x|e|e|a b|a xs|m x e|e arms|pt e a b|x es|e|a i|es|e]; cbn [eval_step quiet] in *; try (apply E; assumption).
  - destruct (eqb_bytes x _); [apply calm_ret, still_none|]. apply calm_here. intros v Ev. eapply still_hget; eassumption.
  - apply calm_ret, still_of.
  - apply calm_ret, still_num.
  - destruct (is_variant _ _ _); [apply calm_ret, still_make, Forall_nil|apply calm_stuck].
  - apply andb_prop in H as [H Ha]. apply andb_prop in H as [Hc _]. destruct h; try apply calm_stuck.
    + destruct (eqb_bytes x _); [|apply calm_stuck]. eapply calm_seq; [apply calm_each; eassumption|]. intros vs Ss. apply calm_ret, still_make, Ss.
    + eapply calm_seq; [apply calm_each; eassumption|]. intros vs Ss. apply calm_assoc; [apply Bool.negb_true_iff, Hc|exact Ss].
  - apply andb_prop in H as [He Ha]. eapply calm_seq; [apply E; eassumption|]. intros v Sv. eapply calm_seq; [apply calm_each; eassumption|]. intros vs Ss. apply calm_method; assumption.
  - eapply calm_seq; [apply E; eassumption|]. intros v Sv. destruct v; try apply calm_stuck. inversion Sv; subst. apply calm_here. intros u Eu. eapply still_hget; eassumption.
  - eapply calm_seq; [apply E; eassumption|]. intros v Sv. apply calm_ret. destruct v; try exact Sv. inversion Sv; subst; assumption.
  - apply andb_prop in H as [Ha Hb]. eapply calm_seq; [apply E; eassumption|]. intros v Sv. eapply calm_seq; [apply E; eassumption|]. intros u Su. apply calm_ret, still_pair; assumption.
  - eapply calm_seq; [apply calm_here; intros fs Ef; eapply still_fields; eassumption|]. intros fs Sf. apply calm_ret, still_struct, Sf.
  - apply calm_ret, still_closure; assumption.
  - apply andb_prop in H as [He Ha]. eapply calm_seq; [apply E; eassumption|]. intros v Sv. destruct (arm_for n v arms) as [[G' e']|] eqn:A; [|apply calm_stuck].
    destruct (still_arm _ _ _ _ _ Sv A) as [SG I]. apply E; [apply Forall_app; split; assumption|]. apply in_map_iff in I as (a & <- & I). rewrite forallb_forall in Ha. exact (Ha a I).
  - apply andb_prop in H as [H Hb]. apply andb_prop in H as [He Ha]. eapply calm_seq; [apply E; eassumption|]. intros v Sv. destruct (bound n pt v) as [G'|] eqn:B; [|apply E; assumption].
    apply E; [apply Forall_app; split; [eapply still_bound; eassumption|exact HG]|exact Ha].
  - apply calm_panic.
  - apply andb_prop in H as [Ha Hb]. eapply calm_seq; [apply E; eassumption|]. intros v Sv. eapply calm_seq; [apply E; eassumption|]. intros u Su. destruct v; try apply calm_stuck. destruct u; try apply calm_stuck.
    destruct (zget l n0) as [y|] eqn:Z0; [|apply calm_panic]. apply calm_ret. inversion Sv as [| | | |? F| | | | | |]; subst. rewrite Forall_forall in F. apply F. eapply zget_in, Z0.
  - eapply calm_seq; [apply calm_each; eassumption|]. intros vs Ss. apply calm_ret, still_list, Ss.
Qed.
End CalmStep.

Lemma calm_eval k : forall n G e, still_env G -> quiet n e = true -> calmly (eval q iter r told k n G e) still.
Proof. induction k as [|k IH]; intros n G e HG H; cbn [eval]; [apply calm_stuck|]. apply calm_step; assumption. Qed.
End Calm.
