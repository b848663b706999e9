(** Proofs for C60, continued: programs over several documents; comparison. *)
From Coq Require Import Sorting.Permutation.
From Verif Require Import Base StringCompactionModel LinkedModel LinkedSpec DocModel DiffModel DiffSpec DiffEditSpec JsonModel ValidModel IntfModel WholeSpec.
From Verif Require Import StringCompactionProofs LinkedProofs DiffProofs DiffProofs2 DiffProofs3 DiffEditProofs IntfProofs GrownProofs SizeProofs WholeProofs ArcModel ArcSpec ArcProofs ArcProofs2 ArcProofs3 ArcProofs4 ArcProofs5.

(* ------------------------------------------------------------------ *)
(** * Programs *)

Lemma nth_lset {A} (x : A) : forall i j l, nth_error (lset i x l) j = if Nat.eqb i j then match nth_error l j with Some _ => Some x | None => None end else nth_error l j.
Proof.
  induction i as [|i IH]; intros [|j] [|y l]; try reflexivity; cbn [lset nth_error Nat.eqb]; [destruct (Nat.eqb i j); reflexivity|]. apply IH.
Qed.
Lemma lset_length {A} (x : A) : forall i l, length (lset i x l) = length l.
Proof. induction i as [|i IH]; intros [|y l]; cbn [lset length]; auto. Qed.

Lemma occ_live_none x : forall i (docs : list (option Z)) a, nth_error docs i = Some (Some a) ->
  occ x (live docs) = (if a =? x then 1 else 0) + occ x (live (lset i None docs)).
Proof.
  induction i as [|i IH]; intros [|y docs] a; cbn [nth_error]; try discriminate; intros E.
  - apply Some_inj in E as ->. reflexivity.
  - unfold live. cbn [lset flat_map]. rewrite !occ_app. fold (live docs). fold (live (lset i None docs)). rewrite (IH _ _ E). lia.
Qed.
Lemma occ_live_some x b : forall i (docs : list (option Z)) a, nth_error docs i = Some (Some a) ->
  occ x (live (lset i (Some b) docs)) = (if b =? x then 1 else 0) + occ x (live (lset i None docs)).
Proof.
  induction i as [|i IH]; intros [|y docs] a; cbn [nth_error]; try discriminate; intros E.
  - reflexivity.
  - unfold live. cbn [lset flat_map]. rewrite !occ_app. fold (live (lset i (Some b) docs)). fold (live (lset i None docs)). rewrite (IH _ _ E). lia.
Qed.
Lemma occ_live_new x b (docs : list (option Z)) : occ x (live (docs ++ [Some b])) = (if b =? x then 1 else 0) + occ x (live docs).
Proof. unfold live. rewrite flat_map_app, occ_app. cbn [flat_map app occ]. lia. Qed.
Lemma live_in (docs : list (option Z)) i a : nth_error docs i = Some (Some a) -> In a (live docs).
Proof. intros E. apply nth_error_In in E. unfold live. apply in_flat_map. exists (Some a). split; [exact E|left; reflexivity]. Qed.
Lemma live_other i j (docs : list (option Z)) a : i <> j -> nth_error docs j = Some (Some a) -> In a (live (lset i None docs)).
Proof. intros NE E. apply live_in with j. rewrite nth_lset. destruct (Nat.eqb_spec i j); [contradiction|exact E]. Qed.

Section Docs.
Context {n : nat}.
Variable def : rootdef n.
Variable held : list Z.
Variable alloc : Z -> list (Z * (Z * cell)) -> Z.
Hypothesis fresh : fresh_alloc alloc.

Definition at_doc (h : heap) (o : option Z) (s : option (sabun n)) : Prop :=
  match o, s with Some a, Some s => root_at n h a s | None, None => True | _, _ => False end.

Lemma docs_kept h h' : forall docs env, (forall a, In a (live docs) -> kept h h' a) -> Forall2 (at_doc h) docs env -> Forall2 (at_doc h') docs env.
Proof.
  intros docs env K F. induction F as [|o s docs env A F IH]; constructor.
  - destruct o as [a|], s as [s|]; cbn [at_doc] in *; auto. eapply vals_kept; [|exact A]. apply K. left. reflexivity.
  - apply IH. intros a Ha. apply K. unfold live. cbn [flat_map]. apply in_or_app. right. exact Ha.
Qed.
Lemma docs_nth h : forall docs env i, Forall2 (at_doc h) docs env ->
  match nth_error docs i, nth_error env i with Some o, Some s => at_doc h o s | None, None => True | _, _ => False end.
Proof.
  intros docs env i F. revert i. induction F as [|o s docs env A F IH]; intros [|i]; cbn [nth_error]; auto. apply IH.
Qed.
Lemma docs_lset h o s : at_doc h o s -> forall i docs env, Forall2 (at_doc h) docs env -> Forall2 (at_doc h) (lset i o docs) (lset i s env).
Proof.
  intros A i docs env F. revert i. induction F as [|o0 s0 docs env A0 F IH]; intros [|i]; cbn [lset]; constructor; auto.
Qed.
Lemma docs_others h h' i : forall docs env, (forall a, In a (live (lset i None docs)) -> kept h h' a) -> Forall2 (at_doc h) docs env ->
  Forall2 (at_doc h') (lset i None docs) (lset i None env).
Proof.
  intros docs env K F. apply docs_kept with h; [exact K|]. apply docs_lset; [exact Logic.I|exact F].
Qed.
Lemma lset_twice {A} (x y : A) : forall i l, lset i x (lset i y l) = lset i x l.
Proof. induction i as [|i IH]; intros [|z l]; cbn [lset]; congruence. Qed.
Lemma root_def_kept h h' : (forall x, In x held -> kept h h' x) -> root_def_at h held def -> root_def_at h' held def.
Proof.
  intros K [A B]. split.
  - intros key id p vt G. destruct (A _ _ _ _ G) as [P I]. split; [|exact I]. eapply param_kept; [|exact P]. intros x Hx. apply K, I, Hx.
  - intros key id d u G. eapply def_kept; [exact K|]. eapply B, G.
Qed.

(** one operation *)
Lemma docs_step_spec h docs env o : good def held (h, docs) env ->
  match nth_error env (match o with DCopy i | DDrop i | DEdit i _ => i end) with
  | Some (Some s) =>
      match o with
      | DCopy i => exists x', docs_step alloc def (h, docs) o = Ok x' /\ good def held x' (env ++ [Some s])
      | DDrop i => exists x', docs_step alloc def (h, docs) o = Ok x' /\ good def held x' (lset i None env)
      | DEdit i c => exists s0 c', fresher_root s s0 /\ unaddr_root c' = unaddr_root c /\
          match root_run def s0 c' with
          | Ok (s', _) => exists x', docs_step alloc def (h, docs) o = Ok x' /\ good def held x' (lset i (Some s') env)
          | Err => False
          | Panic => docs_step alloc def (h, docs) o = Panic
          end
      end
  | _ => docs_step alloc def (h, docs) o = Err
  end.
Proof.
  intros (C & D & F). cbn [fst snd] in C, D, F. change (Forall2 (at_doc h) docs env) in F.
  destruct o as [i|i|i c]; cbn [docs_step]; pose proof (docs_nth h docs env i F) as G;
    destruct (nth_error docs i) as [[a|]|] eqn:Ed, (nth_error env i) as [[s|]|] eqn:Ee; try (exfalso; exact G); try reflexivity; cbn [at_doc] in G.
  - (* copy *)
    destruct (mfold_share [a] h (live docs ++ held) C) as (h' & E & C' & SC & _).
    { intros x [->|[]]. eapply counted_live; [exact C|]. apply in_or_app. left. eapply live_in, Ed. }
    cbn [mfold] in E. destruct (share h a) as [h1| |]; cbn [bind] in E; try discriminate. apply Ok_inj in E as ->.
    cbn [bind]. eexists. split; [reflexivity|].
    assert (K : forall x, kept h h' x) by (intros x; apply kept_same; intros y w E; rewrite SC; exact E).
    split; [|split]; cbn [fst snd].
    + revert C'. apply counted_occ. intros x. rewrite !occ_app, occ_live_new. cbn [occ]. lia.
    + eapply root_def_kept; [intros x _; apply K|exact D].
    + apply Forall2_app; [eapply docs_kept; [intros x _; apply K|exact F]|]. constructor; [|constructor]. eapply vals_kept; [apply K|exact G].
  - (* drop *)
    assert (C1 : counted h (a :: live (lset i None docs) ++ held)).
    { revert C. apply counted_occ. intros x. cbn [occ]. rewrite !occ_app, (occ_live_none x i docs a Ed). lia. }
    destruct (drop_vals_spec held n h (live (lset i None docs) ++ held) a _ C1 G) as (h' & E & C' & K & _). rewrite E. cbn [bind].
    eexists. split; [reflexivity|]. split; [|split]; cbn [fst snd].
    + exact C'.
    + eapply root_def_kept; [|exact D]. intros x Hx. apply K, in_or_app. right. exact Hx.
    + eapply docs_others; [|exact F]. intros x Hx. apply K, in_or_app. left. exact Hx.
  - (* edit *)
    assert (C1 : counted h (a :: live (lset i None docs) ++ held)).
    { revert C. apply counted_occ. intros x. cbn [occ]. rewrite !occ_app, (occ_live_none x i docs a Ed). lia. }
    destruct (hroot_run_spec held alloc fresh n def h a s (live (lset i None docs) ++ held) c C1) as (s0 & c' & F0 & U & A).
    { intros x Hx. apply in_or_app. right. exact Hx. }
    { exact G. }
    { exact D. }
    exists s0, c'. split; [exact F0|]. split; [exact U|]. unfold root_answer in A.
    destruct (root_run def s0 c') as [[s' b]| |]; [|exact A|rewrite A; reflexivity].
    destruct A as (h' & a' & E & (C' & K & _) & R). rewrite E. cbn [bind]. eexists. split; [reflexivity|]. split; [|split]; cbn [fst snd].
    + revert C'. apply counted_occ. intros x. cbn [app occ]. rewrite !occ_app, (occ_live_some x a' i docs a Ed). lia.
    + eapply root_def_kept; [|exact D]. intros x Hx. apply K, in_or_app. right. exact Hx.
    + rewrite <- (lset_twice (Some a') None i docs), <- (lset_twice (Some s') None i env). apply docs_lset; [exact R|].
      eapply docs_others; [|exact F]. intros x Hx. apply K, in_or_app. left. exact Hx.
Qed.

Lemma docs_run_spec : forall ops h docs env, good def held (h, docs) env ->
  exists r, runs def env ops r /\
    match r with
    | Ok env' => exists x', docs_run alloc def (h, docs) ops = Ok x' /\ good def held x' env'
    | Err => docs_run alloc def (h, docs) ops = Err
    | Panic => docs_run alloc def (h, docs) ops = Panic
    end.
Proof.
  induction ops as [|o ops IH]; intros h docs env G.
  - exists (Ok env). split; [constructor|]. eexists. split; [reflexivity|exact G].
  - pose proof (docs_step_spec h docs env o G) as S. unfold docs_run in *. cbn [mfold].
    destruct (nth_error env _) as [[s|]|] eqn:E.
    + destruct o as [i|i|i c].
      * destruct S as ([h' docs'] & Es & G'). rewrite Es. cbn [bind]. destruct (IH _ _ _ G') as (r & R & A).
        exists r. split; [eapply runs_copy; eassumption|exact A].
      * destruct S as ([h' docs'] & Es & G'). rewrite Es. cbn [bind]. destruct (IH _ _ _ G') as (r & R & A).
        exists r. split; [eapply runs_drop; eassumption|exact A].
      * destruct S as (s0 & c' & F & U & A). destruct (root_run def s0 c') as [[s' b]| |] eqn:ER.
        -- destruct A as ([h' docs'] & Es & G'). rewrite Es. cbn [bind]. destruct (IH _ _ _ G') as (r & R & A).
           exists r. split; [eapply runs_edit; eassumption|exact A].
        -- destruct A.
        -- rewrite A. exists Panic. split; [eapply runs_panic; eassumption|reflexivity].
    + rewrite S. exists Err. split; [apply runs_none; rewrite E; intros s F; discriminate|reflexivity].
    + rewrite S. exists Err. split; [apply runs_none; rewrite E; intros s F; discriminate|reflexivity].
Qed.

(** a document that nothing changes *)
Lemma runs_untouched : forall ops env env' i s, runs def env ops (Ok env') -> nth_error env i = Some (Some s) ->
  forallb (fun o => negb (changes i o)) ops = true -> nth_error env' i = Some (Some s).
Proof.
  induction ops as [|o ops IH]; intros env env' i s R E Q; inversion R; subst; cbn [forallb changes] in Q; try exact E.
  - eapply IH; [eassumption| |exact Q]. rewrite nth_error_app1; [exact E|]. apply nth_error_Some. congruence.
  - apply andb_true_iff in Q as [Q1 Q2]. apply negb_true_iff in Q1. eapply IH; [eassumption| |exact Q2].
    rewrite nth_lset, Nat.eqb_sym, Q1. exact E.
  - apply andb_true_iff in Q as [Q1 Q2]. apply negb_true_iff in Q1. eapply IH; [eassumption| |exact Q2].
    rewrite nth_lset, Nat.eqb_sym, Q1. exact E.
Qed.

Lemma untouched ops h docs env x' i s : good def held (h, docs) env -> docs_run alloc def (h, docs) ops = Ok x' ->
  nth_error env i = Some (Some s) -> forallb (fun o => negb (changes i o)) ops = true ->
  exists a, nth_error (snd x') i = Some (Some a) /\ root_at n (fst x') a s.
Proof.
  intros G E N Q. destruct (docs_run_spec ops h docs env G) as (r & R & A). destruct r as [env'| |]; try (rewrite E in A; discriminate).
  destruct A as (x2 & E2 & G2). rewrite E in E2. apply Ok_inj in E2 as <-. pose proof (runs_untouched _ _ _ _ _ R N Q) as N'.
  destruct x' as [h' docs']. destruct G2 as (_ & _ & F). cbn [fst snd] in *. change (Forall2 (at_doc h') docs' env') in F.
  pose proof (docs_nth h' docs' env' i F) as H. rewrite N' in H. destruct (nth_error docs' i) as [[a|]|]; try (exfalso; exact H).
  exists a. split; [reflexivity|exact H].
Qed.
End Docs.

(* ------------------------------------------------------------------ *)
(** * One memory for all documents *)

Lemma param_held h p : param_at h p -> held_param (mem_of h) p.
Proof.
  intros A. unfold param_at in A. destruct p as [x|x|x|x|x|x|x]; try exact Logic.I; (destruct x as [[a s]| |]; [|exact Logic.I ..]);
    cbn [texts] in A; apply Forall_inv in A; cbn beta in A; cbn [held_param fst snd] in *; unfold mem_of; rewrite A; reflexivity.
Qed.
Lemma vals_held n h (inner : mlistT n -> Prop) c m : (forall a l, list_at n h a l -> inner l) -> paired (lvalR n h) c m ->
  forall key v, hget key m = Some v -> match v with LParam p => held_param (mem_of h) p | LMil (Some l) => inner l | _ => True end.
Proof.
  intros H P key v E. pose proof (paired_hget _ key _ _ P) as G. rewrite E in G. destruct (hget key c) as [w|]; [|destruct G].
  unfold lvalR in G. destruct w as [p|t|[a|]], v as [q|u|[l|]]; cbn [lval_at] in G; try (exfalso; exact G); auto.
  - apply param_held, G.
  - eapply H, G.
Qed.
Lemma list_held : forall n h a l, list_at n h a l -> heldT (mem_of h) n l.
Proof.
  induction n as [|n IH]; intros h a l; cbn [list_at heldT]; [intros []|]. intros (_ & c & _ & P) id it E.
  pose proof (paired_lookup _ id _ _ P) as G. destruct (lookup id c) as [x|].
  - match type of G with match ?o with _ => _ end => assert (o = Some it) as EE by exact E; rewrite EE in G end.
    destruct G as [(c' & _ & P') _]. intros key v Ev. apply (vals_held n h (heldT (mem_of h) n) c' (it_values it)) with key; [intros; eapply IH; eassumption|exact P'|exact Ev].
  - match type of G with match ?o with _ => _ end => assert (o = Some it) as EE by exact E; rewrite EE in G end. destruct G.
Qed.
Lemma root_held n h a (s : sabun n) : root_at n h a s -> held_root (mem_of h) s.
Proof.
  intros (c & _ & P) key v E. pose proof (vals_held n h (heldT (mem_of h) n) c _ (list_held n h) P key (as_lval v)) as H.
  rewrite hget_lvals, E in H. specialize (H eq_refl). destruct v as [p|[l|]]; exact H.
Qed.
Lemma root_typed n h a (s : sabun n) def mem : root_at n h a s -> typed_root mem s def -> typed_root (mem_of h) s def.
Proof. intros R T. eapply typed_same; [apply same_root_refl|eapply root_held, R|eapply typed_clean, T|exact T]. Qed.

(* ------------------------------------------------------------------ *)
(** * Comparison *)

Lemma bare_inj h p q : param_at h p -> param_at h q -> bare p = bare q -> p = q.
Proof.
  intros A B E. unfold param_at in *.
  destruct p as [x|x|x|x|x|x|x], q as [y|y|y|y|y|y|y]; destruct x as [x| |]; destruct y as [y| |]; cbn [bare] in E; try discriminate E; try exact E;
    (destruct x as [a s]; destruct y as [b t]; cbn [texts] in A, B;
     apply Forall_inv in A; apply Forall_inv in B; cbn beta in A, B; cbn [fst snd] in *; injection E as ->; rewrite A in B; injection B as ->; reflexivity).
Qed.
Lemma lval_fun n h : (forall a l l', list_at n h a l -> list_at n h a l' -> l = l') -> forall v w w', lvalR n h v w -> lvalR n h v w' -> w = w'.
Proof.
  unfold lvalR. intros H [p|t|[a|]] [q|u|[l|]] [q'|u'|[l'|]]; cbn [lval_at]; try tauto; try congruence.
  - intros [E A] [E' A']. f_equal. eapply bare_inj; [exact A|exact A'|congruence].
  - intros A A'. do 2 f_equal. eapply H; eassumption.
Qed.
Lemma paired_fun {K A B} (R : A -> B -> Prop) : (forall v w w', R v w -> R v w' -> w = w') -> forall (c : list (K * A)) m m', paired R c m -> paired R c m' -> m = m'.
Proof.
  intros H c m m' P. unfold paired in P. revert m'. induction P as [|[k v] [k1 w] c m [E1 R1] P IH]; intros m' P'; unfold paired in P'; inversion P' as [|? [k2 w'] ? m2 [E2 R2] P2]; subst; [reflexivity|].
  cbn [fst snd] in *. f_equal; [|apply IH; exact P2]. f_equal; [congruence|eapply H; eassumption].
Qed.
Lemma list_fun : forall n h a l l', list_at n h a l -> list_at n h a l' -> l = l'.
Proof.
  induction n as [|n IH]; intros h a l l'; cbn [list_at]; [intros []|]. intros (_ & c & E & P) (_ & c' & E' & P').
  destruct l as [l k], l' as [l' k']. cbn [fst snd] in *. rewrite E in E'. injection E' as <- <-. f_equal.
  eapply (paired_fun (item_at h (list_at n h))); [|exact P|exact P'].
  intros x [m r] [m' r'] [(c1 & E1 & P1) R1] [(c2 & E2 & P2) R2]. cbn [it_values it_refs] in *. rewrite E1 in E2. injection E2 as <-. rewrite R1 in R2. injection R2 as <-.
  f_equal. eapply (paired_fun (lvalR n h)); [apply lval_fun, IH|exact P1|exact P2].
Qed.
Lemma root_fun n h a (s s' : sabun n) : root_at n h a s -> root_at n h a s' -> s = s'.
Proof.
  intros (c & E & P) (c' & E' & P'). rewrite E in E'. injection E' as <-.
  assert (as_lvals s = as_lvals s') as H by (eapply (paired_fun (lvalR n h)); [apply lval_fun, list_fun|exact P|exact P']).
  clear - H. revert s' H. induction s as [|[k v] s IH]; intros [|[k' v'] s'] H; try discriminate; [reflexivity|].
  cbn [as_lvals map fst snd] in H. injection H as -> E H. f_equal; [|apply IH, H]. f_equal. apply as_lval_inj, E.
Qed.

Lemma identity_bare p q : identity_eq (bare p) (bare q) = identity_eq p q.
Proof. destruct p as [x|x|x|x|x|x|x], q as [y|y|y|y|y|y|y]; try reflexivity; destruct x, y; reflexivity. Qed.
Lemma paired_keys {K A B} (R : A -> B -> Prop) (c : list (K * A)) (m : list (K * B)) : paired R c m -> map fst c = map fst m.
Proof. intros P. unfold paired in P. induction P as [|x y c l [E _] P IH]; [reflexivity|]. cbn [map]. congruence. Qed.

(** maps with as many keys, all of one among those of the other *)
Lemma ident_map_hget {A} (eq : A -> A -> bool) (m m' : hmap A) : NoDup (map fst m) -> NoDup (map fst m') -> ident_map eq m m' = true ->
  forall key, match hget key m, hget key m' with Some v, Some w => eq v w = true | None, None => True | _, _ => False end.
Proof.
  intros N N' H key. unfold ident_map in H. apply andb_true_iff in H as [Z F]. apply Z.eqb_eq in Z. rewrite forallb_forall in F.
  assert (I : incl (map fst m) (map fst m')).
  { intros k Hk. apply in_map_iff in Hk as ([k0 v] & <- & Hin). specialize (F _ Hin). cbn [fst snd] in *.
    destruct (hget k0 m') as [w|] eqn:E; [|discriminate]. apply hget_in in E. apply in_map_iff. exists (k0, w). split; [reflexivity|exact E]. }
  destruct (hget key m) as [v|] eqn:E.
  - apply hget_in in E. specialize (F _ E). cbn [fst snd] in F. destruct (hget key m') as [w|]; [exact F|discriminate].
  - destruct (hget key m') as [w|] eqn:E'; [|exact Logic.I].
    assert (In key (map fst m)) as Hk.
    { eapply (NoDup_length_incl N); [|exact I|].
      - rewrite !map_length. unfold zlen in Z. lia.
      - apply hget_in in E'. apply in_map_iff. exists (key, w). split; [reflexivity|exact E']. }
    apply in_map_iff in Hk as ([k0 v] & Ek & Hin). cbn [fst] in Ek. subst k0. apply (in_hget _ _ _ N) in Hin. rewrite E in Hin. discriminate.
Qed.

Section Compare.
Variable h : heap.
Let mem := mem_of h.

(** [inner] says the same of inner lists *)
Lemma ident_vals_same n (ty : mlistT n -> Prop) (same : mlistT n -> mlistT n -> Prop) a b m m' :
  (forall x y l l', list_at n h x l -> list_at n h y l' -> ty l -> ty l' -> ident_list n h x y = true -> same l l') ->
  (forall l, same l l) ->
  vals_at h (list_at n h) a m -> vals_at h (list_at n h) b m' ->
  NoDup (map fst m) -> NoDup (map fst m') ->
  (forall key v, hget key m = Some v -> match v with LParam p => wf_param mem p | LMil (Some l) => ty l | LMil None => True | LCil _ => False end) ->
  (forall key v, hget key m' = Some v -> match v with LParam p => wf_param mem p | LMil (Some l) => ty l | LMil None => True | LCil _ => False end) ->
  ident_vals (ident_list n h) h a b = true ->
  forall key, same_opt (same_value same) (hget key m) (hget key m').
Proof.
  intros HI HR (c & E & P) (c' & E' & P') N N' W W' I key. unfold ident_vals in I. apply orb_true_iff in I as [I|I].
  - apply Z.eqb_eq in I as ->. rewrite E in E'. injection E' as <-.
    assert (m = m') as <- by (eapply (paired_fun (lvalR n h)); [apply lval_fun, list_fun|exact P|exact P']).
    apply same_opt_refl. intros [p|t|[l|]]; cbn; auto. apply same_param_refl.
  - destruct (lookup_content _ _ _ E) as [k L]. destruct (lookup_content _ _ _ E') as [k' L']. rewrite L, L' in I.
    assert (Nc : NoDup (map fst c)) by (rewrite (paired_keys _ _ _ P); exact N).
    assert (Nc' : NoDup (map fst c')) by (rewrite (paired_keys _ _ _ P'); exact N').
    pose proof (ident_map_hget _ c c' Nc Nc' I key) as H. pose proof (paired_hget _ key _ _ P) as G. pose proof (paired_hget _ key _ _ P') as G'.
    specialize (W key). specialize (W' key).
    destruct (hget key c) as [v|], (hget key c') as [v'|]; try (exfalso; exact H); destruct (hget key m) as [w|], (hget key m') as [w'|]; try (exfalso; exact G); try (exfalso; exact G'); cbn [same_opt]; auto.
    specialize (W _ eq_refl). specialize (W' _ eq_refl). unfold lvalR in G, G'.
    destruct v as [p|t|[x|]], w as [q|u|[l|]]; cbn [lval_at] in G; try (exfalso; exact G); try (exfalso; exact W);
      destruct v' as [p'|t'|[y|]], w' as [q'|u'|[l'|]]; cbn [lval_at] in G'; try (exfalso; exact G'); try (exfalso; exact W'); cbn [ident_lval] in H; try discriminate H; cbn [same_value same_opt]; auto.
    + destruct G as [-> _], G' as [-> _]. rewrite identity_bare in H. apply identity_eq_same with mem; assumption.
    + apply (HI x y); assumption.
Qed.

Lemma ident_refs_same a b r r' : content h a = Some (CRefs r) -> content h b = Some (CRefs r') -> NoDup (map fst r) -> NoDup (map fst r') ->
  ident_refs h a b = true -> forall key, hget key r = hget key r'.
Proof.
  intros E E' N N' I key. unfold ident_refs in I. apply orb_true_iff in I as [I|I].
  - apply Z.eqb_eq in I as ->. rewrite E in E'. injection E' as <-. reflexivity.
  - destruct (lookup_content _ _ _ E) as [k L]. destruct (lookup_content _ _ _ E') as [k' L']. rewrite L, L' in I.
    pose proof (ident_map_hget _ r r' N N' I key) as H. destruct (hget key r) as [q|], (hget key r') as [q'|]; try (exfalso; exact H); auto.
    f_equal. destruct q, q'; cbn [qv_ident] in H; try discriminate H; try reflexivity. f_equal. apply eqb_bytes_eq, H.
Qed.

Lemma typed_plain_vals {D L} (inner : L -> D -> Prop) (pl : L -> Prop) members m :
  (forall key (v : lval L), hget key m = Some v -> typed_value mem inner members key v) ->
  (forall key v, hget key m = Some v -> match v with LCil _ => False | LMil (Some l) => pl l | _ => True end) ->
  forall key v, hget key m = Some v -> match v with LParam p => wf_param mem p | LMil (Some l) => (exists d, inner l d) /\ pl l | LMil None => True | LCil _ => False end.
Proof.
  intros T Q key v E. specialize (T key v E). specialize (Q key v E). destruct v as [p|t|[l|]]; cbn [typed_value] in T; auto.
  - destruct T as (_ & p0 & vt & _ & _ & _ & W). exact W.
  - split; [|exact Q]. destruct T as (_ & d & _ & _ & T). exists d. exact T.
Qed.

Lemma ident_list_same : forall n x y l l', list_at n h x l -> list_at n h y l' ->
  (exists d, typedT mem n l d) /\ plainT n l -> (exists d, typedT mem n l' d) /\ plainT n l' -> ident_list n h x y = true -> sameT false false n l l'.
Proof.
  induction n as [|n IH]; intros x y l l' A B [[d T] Q] [[d' T'] Q'] I; [exact Logic.I|].
  cbn [ident_list] in I. apply orb_true_iff in I as [I|I].
  - apply Z.eqb_eq in I as ->. rewrite (list_fun (S n) h y l l' A B). apply sameT_refl.
  - destruct A as (ND & c & E & P), B as (ND' & c' & E' & P'). destruct (lookup_content _ _ _ E) as [k L]. destruct (lookup_content _ _ _ E') as [k' L'].
    rewrite L, L' in I. cbn [fst] in I. apply andb_true_iff in I as [Z F]. apply Z.eqb_eq in Z. rewrite forallb_forall in F.
    change (mlist (item (mlistT n))) in l. change (mlist (item (mlistT n))) in l'. destruct l as [li kl], l' as [li' kl']. cbn [fst snd] in *.
    assert (NDc : NoDup (ids c)) by (rewrite (paired_ids _ _ _ P); exact ND).
    assert (In_ : forall id it, lookup id li = Some it -> exists it', lookup id li' = Some it' /\ same_item (sameT false false n) it it').
    { intros id it Ei. pose proof (paired_lookup _ id _ _ P) as G. rewrite Ei in G. destruct (lookup id c) as [u|] eqn:Ec; [|destruct G].
      assert (In (id, u) c) as Hin by (apply lookup_iff; assumption). specialize (F _ Hin). cbn [fst snd] in F.
      destruct (lookup id c') as [u'|] eqn:Ec'; [|discriminate F]. pose proof (paired_lookup _ id _ _ P') as G'. rewrite Ec' in G'.
      destruct (lookup id li') as [it'|] eqn:Ei'; [|destruct G']. exists it'. split; [reflexivity|].
      unfold ident_item in F. apply andb_true_iff in F as [F1 F2]. destruct G as [V R], G' as [V' R'].
      destruct T as (_ & _ & _ & _ & _ & _ & T). destruct T' as (_ & _ & _ & _ & _ & _ & T').
      destruct (T id it Ei) as (Nv & Nr & Tv & _). destruct (T' id it' Ei') as (Nv' & Nr' & Tv' & _).
      split.
      - eapply (ident_vals_same n (fun l => (exists d, typedT mem n l d) /\ plainT n l) (sameT false false n) (fst u) (fst u')).
        + intros x0 y0 l0 l0' A0 B0 T0 T0' I0. eapply IH; eassumption.
        + apply sameT_refl.
        + exact V.
        + exact V'.
        + exact Nv.
        + exact Nv'.
        + eapply typed_plain_vals; [exact Tv|exact (Q id it Ei)].
        + eapply typed_plain_vals; [exact Tv'|exact (Q' id it' Ei')].
        + exact F1.
      - eapply ident_refs_same; [exact R|exact R'|exact Nr|exact Nr'|exact F2]. }
    assert (Inc : incl (ids li) (ids li')).
    { intros id Hid. apply has_in in Hid. unfold has in Hid. destruct (lookup id li) as [it|] eqn:Ei; [|discriminate].
      destruct (In_ id it Ei) as (it' & E1 & _). apply has_in. unfold has. rewrite E1. reflexivity. }
    assert (Len : length (ids li) = length (ids li')).
    { unfold ids. rewrite !map_length. rewrite <- (paired_length _ _ _ P), <- (paired_length _ _ _ P'). unfold zlen in Z. lia. }
    assert (Inc' : incl (ids li') (ids li)) by (apply NoDup_length_incl; [exact ND|lia|exact Inc]).
    cbn [sameT]. split; [|split; [|discriminate]]; cbn [fst].
    + apply NoDup_Permutation; [exact ND|exact ND'|]. intros id. split; [apply Inc|apply Inc'].
    + intros id. destruct (lookup id li) as [it|] eqn:Ei.
      * destruct (In_ id it Ei) as (it' & E1 & S). match goal with |- same_opt _ _ ?o => assert (o = Some it') as -> by exact E1 end. exact S.
      * destruct (lookup id li') as [it'|] eqn:Ei'; [|exact Logic.I]. exfalso.
        assert (In id (ids li)) as Hid by (apply Inc', has_in; unfold has; rewrite Ei'; reflexivity).
        apply has_in in Hid. unfold has in Hid. rewrite Ei in Hid. discriminate.
Qed.

Lemma lvals_keys {L} (s : hmap (rootsab L)) : map fst (as_lvals s) = map fst s.
Proof. unfold as_lvals. rewrite map_map. reflexivity. Qed.

Lemma contents_eq_same n a b (s s' : sabun n) def def' : root_at n h a s -> root_at n h b s' ->
  typed_root mem s def -> typed_root mem s' def' -> plain_root s -> plain_root s' -> contents_eq n h a b = true -> same_root false false s s'.
Proof.
  intros R R' (N & T) (N' & T') Q Q' I.
  assert (W : forall (s : sabun n) (def : rootdef n), (forall key v, hget key s = Some v -> match v with
      | RParam p => exists id p0 vt, hget key def = Some (id, RVParam p0 vt) /\ fits mem p p0 vt
      | RMut o => exists id d undefiable, hget key def = Some (id, RVMList d undefiable) /\ match o with Some l => typedT mem n l d | None => undefiable = true end end) ->
    plain_root s -> forall key v, hget key (as_lvals s) = Some v ->
    match v with LParam p => wf_param mem p | LMil (Some l) => (exists d, typedT mem n l d) /\ plainT n l | LMil None => True | LCil _ => False end).
  { intros s1 def1 T1 Q1 key v. rewrite hget_lvals. destruct (hget key s1) as [w|] eqn:E; cbn [option_map]; [|discriminate]. intros H. apply Some_inj in H as <-.
    specialize (T1 key w E). destruct w as [p|[l|]]; cbn [as_lval]; auto.
    - destruct T1 as (_ & p0 & vt & _ & _ & _ & W). exact W.
    - split; [|eapply Q1, E]. destruct T1 as (_ & d & _ & _ & T1). exists d. exact T1. }
  intros key.
  pose proof (ident_vals_same n (fun l => (exists d, typedT mem n l d) /\ plainT n l) (sameT false false n) a b (as_lvals s) (as_lvals s') (ident_list_same n) (sameT_refl false false n) R R') as H.
  rewrite !lvals_keys in H. specialize (H N N' (W s def T Q) (W s' def' T' Q') I key). rewrite !hget_lvals in H.
  destruct (hget key s) as [[p|o]|], (hget key s') as [[q|o']|]; cbn in *; exact H.
Qed.
End Compare.
