(** Proof of C80: evaluation that is given enough time does not depend on what it would end in
    otherwise. *)
From Coq Require Import String.
From Verif Require Import Base StringCompactionModel StringCompactionProofs LinkedModel LinkedSpec DocModel DiffSpec DiffProofs ArchiveModel JsonModel IntfModel IntfProofs GenModel GenSpec CodeSpec ApiModel TypeSpec TypeProofs ReadModel RunModel RunSpec SoundSpec SoundProofs SoundStepProofs.

Local Notation text := (list Z).
Local Notation "! s" := (txt s%string) (at level 0, s at level 0).
Local Notation "'var' s" := (EVar (txt s%string)) (at level 0, s at level 0).
Local Notation self_ptr := (EField (EVar (txt "self")) (txt "ptr")).
Local Notation unwrap e := (EMethod e (txt "unwrap") []).

Definition anything {A} (_ : A) : Prop := True.
Definition same {A} (m m' : M A) (P : A -> Prop) : Prop := forall w, m' w = m w /\ forall a w', m w = Ok (a, w') -> P a.
Lemma same_ret {A} (a : A) (P : A -> Prop) : P a -> same (ret a) (ret a) P.
Proof. intros H w. split; [reflexivity|]. intros b w' E. unfold ret in E. injection E as <- _. exact H. Qed.
Lemma same_stuck {A} (P : A -> Prop) : same stuck stuck P.
Proof. intros w. split; [reflexivity|]. intros b w' E. discriminate E. Qed.
Lemma same_panic {A} (P : A -> Prop) : same panic panic P.
Proof. intros w. split; [reflexivity|]. intros b w' E. discriminate E. Qed.
Lemma same_seq {A B} (m m' : M A) (f f' : A -> M B) P Q : same m m' P -> (forall a, P a -> same (f a) (f' a) Q) -> same (seq m f) (seq m' f') Q.
Proof.
  intros H F w. unfold seq. destruct (H w) as [-> X]. destruct (m w) as [[a w']| |].
  - apply F. eapply X. reflexivity.
  - split; [reflexivity|]. intros b w' E. discriminate E.
  - split; [reflexivity|]. intros b w' E. discriminate E.
Qed.
Lemma same_now {A B} (a : A) (f f' : A -> M B) Q : same (f a) (f' a) Q -> same (seq (ret a) f) (seq (ret a) f') Q.
Proof. intros H. exact H. Qed.
Lemma same_imp {A} (m m' : M A) (P Q : A -> Prop) : (forall a, P a -> Q a) -> same m m' P -> same m m' Q.
Proof. intros I H w. destruct (H w) as [E X]. split; [exact E|]. intros a w' Y. eapply I, X, Y. Qed.
Lemma same_any {A} (m : M A) : same m m anything.
Proof. intros w. split; [reflexivity|]. intros a w' _. exact Logic.I. Qed.
Lemma same_shape {A} (m : M A) (P : A -> Prop) : (forall w a w', m w = Ok (a, w') -> P a) -> same m m P.
Proof. intros H w. split; [reflexivity|]. intros a w' E. exact (H w a w' E). Qed.
Lemma same_weak {A} (m m' : M A) (P : A -> Prop) : same m m' P -> same m m' anything.
Proof. apply same_imp. intros a _. exact Logic.I. Qed.

(** a value that may be missing *)
Definition held (P : val -> Prop) (v : val) : Prop := exists a c xs, v = VMake a c xs /\ one_of holders a = true /\ forall x, In x xs -> P x.
Lemma held_imp (P Q : val -> Prop) v : (forall x, P x -> Q x) -> held P v -> held Q v.
Proof. intros I (a & c & xs & E & H & X). exists a, c, xs. split; [exact E|]. split; [exact H|]. intros x J. apply I, X, J. Qed.
Lemma held_opt {A} (f : A -> val) o (P : val -> Prop) : (forall a, o = Some a -> P (f a)) -> held P (of_opt f o).
Proof.
  intros H. destruct o as [a|]; cbn [of_opt].
  - exists !"Option", !"Some", [f a]. split; [reflexivity|]. split; [vm_compute; reflexivity|]. intros x [<-|[]]. apply H. reflexivity.
  - exists !"Option", !"None", []. split; [reflexivity|]. split; [vm_compute; reflexivity|]. intros x [].
Qed.
Lemma held_qv {A} (f : A -> val) q : held anything (of_qv f q).
Proof. destruct q; cbn [of_qv]; do 3 eexists; (split; [reflexivity|]); (split; [vm_compute; reflexivity|]); intros x _; exact Logic.I. Qed.
Lemma held_type p h v t : program_ok p -> In h [!"Qv"; !"NullOr"; !"UndefOr"] -> of_type p v (RApp h t) -> held (fun x => of_type p x t) v.
Proof.
  intros POK I H. assert (O : one_of holders h = true) by (destruct I as [<-|[<-|[<-|[]]]]; vm_compute; reflexivity). apply in_holder in H as [(x & -> & X)|[(_ & ->)|(_ & ->)]]; [| | |exact I].
  - do 3 eexists. split; [reflexivity|]. split; [exact O|]. intros y [<-|[]]. exact X.
  - do 3 eexists. split; [reflexivity|]. split; [exact O|]. intros y [].
  - do 3 eexists. split; [reflexivity|]. split; [exact O|]. intros y [].
Qed.

Section Core.
Variable iter : forall A, hmap A -> hmap A.
Variable r : root_obj.
Variable told : effect -> bool.
Definition deep (g : prim) : bool := match g with FGet _ | FDefault _ | FMutable _ | FList | FRef | FRefId => true | _ => false end.
Definition flat_one (g : prim) : bool := match g with FTable | FCList | FCil | FOpen | FEnum | FRow => true | _ => false end.
Lemma core_deep g vs w v w' : deep g = true -> core_do iter r told g vs w = Ok (v, w') -> held (held anything) v.
Proof.
  intros Dg E. destruct g; try discriminate Dg; unfold core_do in E;
    repeat match type of E with
    | match ?x with _ => _ end = _ => destruct x; try discriminate E
    | (match ?x with _ => _ end) = _ => destruct x; try discriminate E
    end; try (injection E as <- _); try (apply held_opt; intros a _; apply held_qv).
  - apply held_opt. intros a _. apply held_opt. intros b _. exact Logic.I.
  - apply bind_ok in E as (y & _ & E). injection E as <- _. apply held_opt. intros a _. apply held_qv.
Qed.
Lemma core_flat g vs w v w' : flat_one g = true -> core_do iter r told g vs w = Ok (v, w') -> held anything v.
Proof.
  intros Dg E. destruct g; try discriminate Dg; unfold core_do in E;
    repeat match type of E with
    | match ?x with _ => _ end = _ => destruct x; try discriminate E
    end; try (injection E as <- _); try (apply held_opt; intros a _; exact Logic.I).
Qed.
End Core.

Section Program.
Variable p : list CodeSpec.item.
Hypothesis POK : program_ok p.
Hypothesis NAMED : plainly_named p.
Variable iter : forall A, hmap A -> hmap A.
Variable r : root_obj.
Variable told : effect -> bool.
Variable o o' : res (val * trace).
Local Notation T := (timed p iter r told).

Definition Sm (k : nat) n G e (P : val -> Prop) : Prop := same (T o k n G e) (T o' k n G e) P.
Definition Sl (k : nat) n G es : Prop := same (each (T o k) n G es) (each (T o' k) n G es) anything.
Definition Lt (k : nat) n G ss (Q : env -> Prop) : Prop := same (lets (T o k) n G ss) (lets (T o' k) n G ss) Q.

Lemma sm_weak k n G e P : Sm k n G e P -> Sm k n G e anything. Proof. apply same_weak. Qed.
Lemma sl_nil k n G : Sl k n G []. Proof. apply same_any. Qed.
Lemma sl_cons k n G e es P : Sm k n G e P -> Sl k n G es -> Sl k n G (e :: es).
Proof. intros H L. unfold Sl. cbn [each]. eapply same_seq; [exact H|]. intros v _. eapply same_seq; [exact L|]. intros vs _. apply same_any. Qed.
Definition leaf (e : expr) : Prop := match e with EVar _ | EText _ | ENum _ | EPath _ _ | EStruct _ _ | EClosure _ _ _ | EMacro _ _ => True | _ => False end.
Lemma sm_leaf k n G e : leaf e -> Sm (S k) n G e anything.
Proof. intros L. unfold Sm. cbn [timed]. destruct e; try contradiction L; cbn [eval_step]; apply same_any. Qed.
Lemma sm_var k n G x v (P : val -> Prop) : eqb_bytes x !"None" = false -> hget x G = Some v -> P v -> Sm (S k) n G (EVar x) P.
Proof. intros N H X. unfold Sm. cbn [timed eval_step]. rewrite N, H. apply same_ret, X. Qed.
Lemma sm_field k n G e x (P : val -> Prop) : Sm k n G e (fun v => forall m fs y, v = VStruct m fs -> hget x fs = Some y -> P y) -> Sm (S k) n G (EField e x) P.
Proof.
  intros H. unfold Sm. cbn [timed eval_step]. eapply same_seq; [exact H|]. intros v X. destruct v; try apply same_stuck. destruct (hget x fields) eqn:E; cbn [here]; [apply same_ret; eapply X; [reflexivity|exact E]|apply same_stuck].
Qed.
Lemma sm_self_ptr k n G : Sm (S (S k)) n G self_ptr anything.
Proof. apply sm_field. eapply same_imp; [|apply sm_leaf; exact Logic.I]. intros v _ m fs y _ _. exact Logic.I. Qed.
Lemma sl_ptr k n G : Sl (S (S k)) n G [self_ptr].
Proof. eapply sl_cons; [apply sm_self_ptr|apply sl_nil]. Qed.
Lemma sl_ptr_text k n G key : Sl (S (S k)) n G [self_ptr; EText key].
Proof. eapply sl_cons; [apply sm_self_ptr|]. eapply sl_cons; [apply sm_leaf; exact Logic.I|apply sl_nil]. Qed.

(** what needs no evaluation *)
Lemma sm_core k n G a f args g (P : val -> Prop) : core_fn a f = Some g -> Sl k n G args -> (forall vs w v w', core_do iter r told g vs w = Ok (v, w') -> P v) -> Sm (S k) n G (ECall (EPath a f) args) P.
Proof.
  intros C L H. unfold Sm. cbn [timed eval_step]. rewrite (core_not_self _ _ _ n C). eapply same_seq; [exact L|]. intros vs _. unfold assoc. rewrite C. apply same_shape. apply H.
Qed.
Lemma core_any k n G a f args g : core_fn a f = Some g -> Sl k n G args -> Sm (S k) n G (ECall (EPath a f) args) anything.
Proof. intros C L. eapply sm_core; [exact C|exact L|]. intros. exact Logic.I. Qed.
Lemma assoc_known ev ev' a f vs : one_of guards a || one_of holders a || eqb_bytes a !"Box" || eqb_bytes a !"RootObjectPtr" = true -> assoc p iter r told ev a f vs = assoc p iter r told ev' a f vs.
Proof.
  intros H. unfold assoc. destruct (core_fn a f); [reflexivity|]. destruct (one_of guards a); [reflexivity|]. destruct (one_of holders a); [reflexivity|]. destruct (eqb_bytes a !"Box"); [reflexivity|].
  destruct (eqb_bytes a !"RootObjectPtr"); [reflexivity|discriminate H].
Qed.
Lemma sm_known k n G a f args : eqb_bytes a !"Self" = false -> one_of guards a || one_of holders a || eqb_bytes a !"Box" || eqb_bytes a !"RootObjectPtr" = true -> Sl k n G args ->
  Sm (S k) n G (ECall (EPath a f) args) anything.
Proof.
  intros N H L. unfold Sm. cbn [timed eval_step]. unfold named. rewrite N. eapply same_seq; [exact L|]. intros vs _. rewrite (assoc_known (T o' k) (T o k) a f vs H). apply same_any.
Qed.
Lemma sm_from_qv k n G a e P : In a [!"NullOr"; !"UndefOr"] -> Sm k n G e (held P) -> Sm (S k) n G (ECall (EPath a !"from_qv") [e]) (held (held P)).
Proof.
  intros I H. unfold Sm. cbn [timed eval_step]. assert (N : named n a = a) by (destruct I as [<-|[<-|[]]]; reflexivity). rewrite N.
  apply same_seq with (P := fun vs => exists v, vs = [v] /\ held P v).
  - cbn [each]. eapply same_seq; [exact H|]. intros v V. apply same_now. apply same_ret. exists v. split; [reflexivity|exact V].
  - intros vs (v & -> & V). assert (X : forall ev, assoc p iter r told ev a !"from_qv" [v] = from_qv a v) by (intros ev; destruct I as [<-|[<-|[]]]; reflexivity). rewrite !X.
    apply same_shape. intros w x w' E. destruct V as (b & c & xs & -> & _ & V). unfold from_qv in E. destruct (_ || _) in E; unfold ret in E; injection E as <- _.
    + exists !"Option", !"Some", [VMake a c xs]. split; [reflexivity|]. split; [vm_compute; reflexivity|]. intros y [<-|[]]. exists a, c, xs. split; [reflexivity|]. split; [destruct I as [<-|[<-|[]]]; vm_compute; reflexivity|exact V].
    + exists !"Option", !"None", []. split; [reflexivity|]. split; [vm_compute; reflexivity|]. intros y [].
Qed.

(** methods of what may be missing *)
Lemma sm_holder k n G e f (P Q : val -> Prop) : Sm k n G e (held P) -> (forall a c xs w y w', one_of holders a = true -> (forall x, In x xs -> P x) -> holder_fn (apply (T o k)) a c xs f [] w = Ok (y, w') -> Q y) ->
  (forall a c xs, holder_fn (apply (T o' k)) a c xs f [] = holder_fn (apply (T o k)) a c xs f []) -> Sm (S k) n G (EMethod e f []) Q.
Proof.
  intros H X Y. unfold Sm. cbn [timed eval_step each]. eapply same_seq; [exact H|]. intros v (a & c & xs & -> & HO & V). apply same_now.
  cbn [method_of]. rewrite HO, Y. apply same_shape. intros w y w' E. eapply X; [exact HO|exact V|exact E].
Qed.
Lemma sm_unwrap k n G e P : Sm k n G e (held P) -> Sm (S k) n G (unwrap e) P.
Proof.
  intros H. eapply sm_holder; [exact H| |reflexivity]. intros a c xs w y w' _ V E. change (holder_fn (apply (T o k)) a c xs !"unwrap" []) with (match xs with [x] => ret x | _ => panic end : M val) in E.
  destruct xs as [|x [|x' xs]]; [discriminate E| |discriminate E]. unfold ret in E. injection E as <- _. apply V. left. reflexivity.
Qed.
Lemma sm_into_value k n G e P : Sm k n G e (held P) -> Sm (S k) n G (EMethod e !"into_value" []) (held P).
Proof.
  intros H. eapply sm_holder; [exact H| |reflexivity]. intros a c xs w y w' _ V E.
  change (holder_fn (apply (T o k)) a c xs !"into_value" []) with (ret (match xs with [x] => some x | _ => none end) : M val) in E. unfold ret in E. injection E as <- _.
  destruct xs as [|x [|x' xs]]; do 3 eexists; (split; [reflexivity|]); (split; [vm_compute; reflexivity|]); [intros y []|exact V|intros y []].
Qed.
Lemma sm_into_qv k n G e P : Sm k n G e (held P) -> Sm (S k) n G (EMethod e !"into_qv" []) (held P).
Proof.
  intros H. eapply sm_holder; [exact H| |reflexivity]. intros a c xs w y w' _ V E.
  change (holder_fn (apply (T o k)) a c xs !"into_qv" []) with (ret (VMake !"Qv" c xs) : M val) in E. unfold ret in E. injection E as <- _.
  do 3 eexists. split; [reflexivity|]. split; [vm_compute; reflexivity|exact V].
Qed.
Lemma sm_map k n G e mv x b P : Sm (S k) n G e (held P) -> (forall v, P v -> Sm (S k) n ((x, v) :: G) b anything) -> Sm (S (S k)) n G (EMethod e !"map" [EClosure mv x b]) anything.
Proof.
  intros H B. unfold Sm. change (T o (S (S k))) with (eval_step p iter r told (T o (S k))). change (T o' (S (S k))) with (eval_step p iter r told (T o' (S k))). cbn [eval_step each].
  eapply same_seq; [exact H|]. intros v (a & c & xs & -> & HO & V). apply same_seq with (P := fun vs => vs = [VClosure n x b G]).
  - cbn [timed eval_step]. apply same_now. apply same_now. apply same_ret. reflexivity.
  - intros vs ->. cbn [method_of]. rewrite HO.
    assert (X : forall ev, holder_fn (apply ev) a c xs !"map" [VClosure n x b G] = match xs with [] => ret (VMake a c []) | [y] => seq (ev n ((x, y) :: G) b) (fun z => ret (VMake a c [z])) | _ => stuck end) by reflexivity.
    rewrite !X. destruct xs as [|y [|y' xs]]; [apply same_any| |apply same_any]. eapply same_seq; [apply B, V; left; reflexivity|]. intros z _. apply same_any.
Qed.

Lemma sm_unmark k n G vt v P : hget !"qv" G = Some v -> held P v -> Sm (S (S (S k))) n G (unmark vt) (fun x => vt = Normal \/ held P x).
Proof.
  intros H V. assert (Q : forall k, Sm (S k) n G var"qv" (held P)) by (intros k'; eapply sm_var; [reflexivity|exact H|exact V]).
  destruct vt; cbn [unmark].
  - eapply same_imp; [intros x _; left; reflexivity|]. apply sm_unwrap with (P := P), sm_into_value, Q.
  - eapply same_imp; [intros x Y; right; exact Y|]. apply sm_unwrap, sm_from_qv; [left; reflexivity|apply Q].
  - eapply same_imp; [intros x Y; right; exact Y|]. apply sm_unwrap, sm_from_qv; [right; left; reflexivity|apply Q].
  - eapply same_imp; [intros x Y; right; exact Y|]. apply Q.
Qed.

(** control *)
Lemma arm_in n v arms : forall H e, arm_for n v arms = Some (H, e) -> exists q, In (q, e) arms /\ bound n q v = Some H.
Proof.
  induction arms as [|[q e'] arms IH]; intros H e E; [discriminate E|]. cbn [arm_for] in E. destruct (bound n q v) as [H'|] eqn:Bq.
  - injection E as <- <-. exists q. split; [left; reflexivity|exact Bq].
  - destruct (IH _ _ E) as (q' & I & X). exists q'. split; [right; exact I|exact X].
Qed.
Lemma sm_match k n G e arms P Q : Sm k n G e P -> (forall v q H e', P v -> In (q, e') arms -> bound n q v = Some H -> Sm k n (H ++ G) e' Q) -> Sm (S k) n G (EMatch e arms) Q.
Proof.
  intros E A. unfold Sm. cbn [timed eval_step]. eapply same_seq; [exact E|]. intros v V. destruct (arm_for n v arms) as [[H e']|] eqn:F; [|apply same_stuck].
  apply arm_in in F as (q & I & X). eapply A; [exact V|exact I|exact X].
Qed.
Lemma sm_if_let k n G q e a b P : Sm k n G e P -> (forall H, Sm k n (H ++ G) a anything) -> Sm k n G b anything -> Sm (S k) n G (EIfLet q e a b) anything.
Proof. intros E A B. unfold Sm. cbn [timed eval_step]. eapply same_seq; [exact E|]. intros v _. destruct (bound n q v); [apply A|apply B]. Qed.
Lemma sm_ref k n G e P : Sm k n G e P -> Sm (S k) n G (ERef e) P. Proof. intros H. exact H. Qed.
Lemma sm_unsafe k n G e P : Sm k n G e P -> Sm (S k) n G (EUnsafe e) P. Proof. intros H. exact H. Qed.
Lemma sm_block k n G e P : Sm k n G e P -> Sm (S k) n G (EBlock e) P. Proof. intros H. exact H. Qed.
Lemma sm_deref k n G e P : Sm k n G e P -> Sm (S k) n G (EDeref e) anything.
Proof. intros H. unfold Sm. cbn [timed eval_step]. eapply same_seq; [exact H|]. intros v _. apply same_any. Qed.
Lemma sm_pair k n G a b P Q : Sm k n G a P -> Sm k n G b Q -> Sm (S k) n G (EPair a b) anything.
Proof. intros A B. unfold Sm. cbn [timed eval_step]. eapply same_seq; [exact A|]. intros v _. eapply same_seq; [exact B|]. intros u _. apply same_any. Qed.
Lemma sm_index k n G a b P Q : Sm k n G a P -> Sm k n G b Q -> Sm (S k) n G (EIndex a b) anything.
Proof. intros A B. unfold Sm. cbn [timed eval_step]. eapply same_seq; [exact A|]. intros v _. eapply same_seq; [exact B|]. intros u _. apply same_any. Qed.
Lemma sm_some k n G args : Sl k n G args -> Sm (S k) n G (ECall var"Some" args) anything.
Proof. intros L. unfold Sm. cbn [timed eval_step]. change (eqb_bytes !"Some" !"Some") with true. cbv iota. eapply same_seq; [exact L|]. intros vs _. apply same_any. Qed.
Lemma sl_texts k n G l : Sl (S k) n G (map EText l).
Proof. induction l as [|s l IH]; cbn [map]; [apply sl_nil|]. eapply sl_cons; [apply sm_leaf; exact Logic.I|exact IH]. Qed.
Lemma sm_array k n G es : Sl k n G es -> Sm (S k) n G (EArray es) anything.
Proof. intros L. unfold Sm. cbn [timed eval_step]. eapply same_seq; [exact L|]. intros vs _. apply same_any. Qed.
Lemma sm_box k n G e f : (f = !"as_ref" \/ f = !"as_mut") -> Sm k n G e (fun v => exists x, v = VBox x) -> Sm (S k) n G (EMethod e f []) anything.
Proof.
  intros F H. unfold Sm. cbn [timed eval_step each]. eapply same_seq; [exact H|]. intros v (x & ->). apply same_now. cbn [method_of]. apply same_any.
Qed.
Lemma sm_def k n G e : Sm k n G e (fun v => exists q, v = VPtr q) -> Sm (S k) n G (EMethod e !"def" []) anything.
Proof.
  intros H. unfold Sm. cbn [timed eval_step each]. eapply same_seq; [exact H|]. intros v (x & ->). apply same_now. cbn [method_of]. apply same_any.
Qed.

(** the functions of the program *)
Definition quick (j : nat) (a : text) (f : fn) : Prop :=
  forall k self args, self_typed p a (f_self f) self -> same (enter (T o (j + k)) a f self args) (enter (T o' (j + k)) a f self args) anything.
Definition brief (j : nat) (a : text) (f : fn) : Prop :=
  forall k self args, self_typed p a (f_self f) self -> args_typed p a f args -> same (enter (T o (j + k)) a f self args) (enter (T o' (j + k)) a f self args) anything.
Definition has_fn (j : nat) (a nm : text) (rc : receiver) : Prop := exists f, fn_of p a f /\ f_name f = nm /\ f_self f = rc /\ quick j a f.

Lemma quick_brief j a f : quick j a f -> brief j a f.
Proof. intros H k self args X _. exact (H k self args X). Qed.
Lemma brief_more i j a f : brief j a f -> brief (i + j) a f.
Proof. intros H k self args X Y. pose proof (H (i + k)%nat self args X Y) as Z. replace (i + j + k)%nat with (j + (i + k))%nat by lia. exact Z. Qed.

Lemma sm_fn j k n G a f args : a <> !"Self" -> has_fn j a f NoSelf -> Sl (j + k) n G args -> Sm (S (j + k)) n G (path a f args) anything.
Proof.
  intros N (g & F & <- & R & Q) L. unfold Sm, path. cbn [timed eval_step]. rewrite (named_other n a N). eapply same_seq; [exact L|]. intros vs _.
  destruct (fn_found p POK a g F) as (FN & _ & I). rewrite !(assoc_own p POK) by exact I. rewrite !named_app, FN. apply Q. rewrite R. reflexivity.
Qed.
Lemma sm_own_self k n G f args g : fn_named f (own_fns p n) = Some g -> In n (type_names p) -> Sl k n G args ->
  (forall vs, same (enter (T o k) n g None vs) (enter (T o' k) n g None vs) anything) -> Sm (S k) n G (path !"Self" f args) anything.
Proof.
  intros FN I L Q. unfold Sm, path. cbn [timed eval_step]. change (named n !"Self") with n. eapply same_seq; [exact L|]. intros vs _.
  rewrite !(assoc_own p POK) by exact I. rewrite !named_app, FN. apply Q.
Qed.
Lemma method_own ev a v f vs : In a (type_names p) -> of_type p v (RName a) -> method_of p r ev v f vs = own_method p ev a v f vs.
Proof.
  intros I V. pose proof I as J. unfold type_names in J. apply in_flat_map in J as (i & J & K). destruct i as [path|tr m|d m fields|d m variants|m fns|tr m fns]; cbn [In] in K; try contradiction K; destruct K as [->|[]].
  - apply (in_struct p POK v a fields) in V as (fs & -> & _); [reflexivity|]. exists d. exact J.
  - apply (in_enum p POK v a variants) in V as [(c & -> & _)|(c & t' & x & -> & _)]; [| |exists d; exact J]; cbn [method_of]; rewrite (not_holder p POK a I); reflexivity.
Qed.
Lemma sm_own j k n G e a f args : has_fn j a f ByRef -> Sm (j + k) n G e (fun v => of_type p v (RName a)) -> Sl (j + k) n G args -> Sm (S (j + k)) n G (EMethod e f args) anything.
Proof.
  intros (g & F & <- & R & Q) E L. destruct (fn_found p POK a g F) as (FN & _ & I). unfold Sm. cbn [timed eval_step]. eapply same_seq; [exact E|]. intros v V. eapply same_seq; [exact L|]. intros vs _.
  rewrite !(method_own _ a v _ vs I V). unfold own_method. rewrite FN. apply Q. rewrite R. exists v. split; [reflexivity|exact V].
Qed.

Lemma lt_nil k n G (Q : env -> Prop) : Q G -> Lt k n G [] Q. Proof. intros H. unfold Lt. cbn [lets]. apply same_ret, H. Qed.
Lemma lt_let k n G m q e ss P Q : Sm k n G e P -> (forall v H, P v -> bound n q v = Some H -> Lt k n (H ++ G) ss Q) -> Lt k n G (SLet m q e :: ss) Q.
Proof. intros E L. unfold Lt. cbn [lets]. eapply same_seq; [exact E|]. intros v V. destruct (bound n q v) as [H|] eqn:Bq; [apply (L v H V Bq)|apply same_stuck]. Qed.
Lemma lt_expr k n G e ss P Q : Sm k n G e P -> Lt k n G ss Q -> Lt k n G (SExpr e :: ss) Q.
Proof. intros E L. unfold Lt. cbn [lets]. eapply same_seq; [exact E|]. intros v _. exact L. Qed.
(** the variables a function begins with *)
Definition begins (f : fn) (self : option val) (args : list val) : env := match self with Some v => [(!"self", v)] | None => [] end ++ combine (map fst (f_args f)) args.
Lemma enter_same k n f self args Q : Lt k n (begins f self args) (f_lets f) Q -> (forall G, Q G -> match f_value f with Some e => Sm k n G e anything | None => True end) ->
  same (enter (T o k) n f self args) (enter (T o' k) n f self args) anything.
Proof.
  intros L V. unfold enter. eapply same_seq; [exact L|]. intros G X. specialize (V G X). destruct (f_value f) as [e|]; [|apply same_any]. eapply same_seq; [exact V|]. intros v _. apply same_any.
Qed.
(** without statements *)
Lemma enter_value k n f self args : f_lets f = [] -> match f_value f with Some e => Sm k n (begins f self args) e anything | None => True end -> same (enter (T o k) n f self args) (enter (T o' k) n f self args) anything.
Proof. intros L V. eapply enter_same with (Q := fun G => G = begins f self args); [rewrite L; apply lt_nil; reflexivity|]. intros G ->. exact V. Qed.
End Program.
