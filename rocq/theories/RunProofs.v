(** Proof of C68: rules of evaluation, and what the functions that are written evaluate to. *)
From Coq Require Import String.
From Verif Require Import Base StringCompactionModel StringCompactionProofs LinkedModel LinkedSpec DocModel DiffSpec DiffProofs ArchiveModel JsonModel IntfModel GenModel GenSpec CodeSpec ApiModel TypeSpec ReadModel RunModel RunSpec.

Local Notation text := (list Z).
Local Notation "! s" := (txt s%string) (at level 0, s at level 0).

(** [P] for what comes after, the same outcome if nothing does *)
Definition and_then {A B} (R : res (A * trace)) (R' : res (B * trace)) (P : A -> trace -> Prop) : Prop :=
  match R with Ok (a, w) => P a w | Err => R' = Err | Panic => R' = Panic end.

(** with enough time *)
Definition conv {A} (m : nat -> M A) (w : trace) (R : res (A * trace)) : Prop := exists k0, forall k, (k0 <= k)%nat -> m k w = R.

Lemma conv_now {A} (m : nat -> M A) w R : (forall k, m k w = R) -> conv m w R.
Proof. intros H. exists O. intros k _. apply H. Qed.
Lemma conv_seq {A B} (m : nat -> M A) (f : nat -> A -> M B) w R1 R :
  conv m w R1 -> and_then R1 R (fun a w1 => conv (fun k => f k a) w1 R) -> conv (fun k => seq (m k) (f k)) w R.
Proof.
  intros (k1 & H1) H2. destruct R1 as [[a w1]| |]; cbn [and_then] in H2.
  - destruct H2 as (k2 & H2). exists (Nat.max k1 k2). intros k L. unfold seq. rewrite H1 by lia. apply H2. lia.
  - exists k1. intros k L. unfold seq. rewrite H1 by lia. symmetry. exact H2.
  - exists k1. intros k L. unfold seq. rewrite H1 by lia. symmetry. exact H2.
Qed.
Lemma conv_ext {A} (m m' : nat -> M A) w R : (forall k, m k w = m' k w) -> conv m w R -> conv m' w R.
Proof. intros E (k0 & H). exists k0. intros k L. rewrite <- E. apply H, L. Qed.
Lemma conv_R {A} (m : nat -> M A) w R R' : conv m w R -> R = R' -> conv m w R'.
Proof. intros H <-. exact H. Qed.

Lemma hget_here {A} x y (v : A) r : eqb_bytes y x = true -> hget x ((y, v) :: r) = Some v.
Proof. intros E. cbn [hget]. rewrite E. reflexivity. Qed.
Lemma hget_next {A} x y (u : A) r v : eqb_bytes y x = false -> hget x r = Some v -> hget x ((y, u) :: r) = Some v.
Proof. intros E H. cbn [hget]. rewrite E. exact H. Qed.

Section Run.
Variable p : list CodeSpec.item.
Variable iter : forall A, hmap A -> hmap A.
Variable r : root_obj.
Variable told : effect -> bool.
Local Notation eval := (RunSpec.eval p iter r told).

Definition EV n G e w R := conv (fun k => eval k n G e) w R.
Definition EVs n G es w R := conv (fun k => each (eval k) n G es) w R.
Definition Enter n g self args w R := conv (fun k => enter (eval k) n g self args) w R.
Definition Assoc n f vs w R := conv (fun k => assoc p iter r told (eval k) n f vs) w R.
Definition Method v f vs w R := conv (fun k => method_of p r (eval k) v f vs) w R.
Definition Lets n G ss w R := conv (fun k => lets (eval k) n G ss) w R.

Lemma ev_step n G e w R : conv (fun k => eval_step p iter r told (eval k) n G e) w R -> EV n G e w R.
Proof. intros (k0 & H). exists (S k0). intros k L. destruct k as [|k]; [lia|]. cbn [RunSpec.eval]. apply H. lia. Qed.

(* ------------------------------------------------------------------ *)
(** * Rules *)

Lemma evs_nil n G w : EVs n G [] w (Ok ([], w)).
Proof. apply conv_now. reflexivity. Qed.
Lemma evs_cons n G e es w R1 R : EV n G e w R1 ->
  and_then R1 R (fun v w1 => exists R2, EVs n G es w1 R2 /\ and_then R2 R (fun vs w2 => R = Ok (v :: vs, w2))) -> EVs n G (e :: es) w R.
Proof.
  intros H1 H. unfold EVs. cbn [each]. eapply conv_seq; [exact H1|]. destruct R1 as [[v w1]| |]; cbn [and_then] in *; [|exact H..].
  destruct H as (R2 & H2 & H). eapply conv_seq; [exact H2|]. destruct R2 as [[vs w2]| |]; cbn [and_then] in *; [|exact H..].
  apply conv_now. intros _. symmetry. exact H.
Qed.

Lemma evs_ok n G e es w v w1 vs w2 : EV n G e w (Ok (v, w1)) -> EVs n G es w1 (Ok (vs, w2)) -> EVs n G (e :: es) w (Ok (v :: vs, w2)).
Proof. intros H1 H2. eapply evs_cons; [exact H1|]. cbn [and_then]. eexists. split; [exact H2|reflexivity]. Qed.

Lemma ev_var n G x w v : eqb_bytes x !"None" = false -> hget x G = Some v -> EV n G (EVar x) w (Ok (v, w)).
Proof. intros N H. apply ev_step, conv_now. intros k. cbn [eval_step]. rewrite N, H. reflexivity. Qed.
Lemma ev_none n G w : EV n G (EVar !"None") w (Ok (none, w)).
Proof. apply ev_step, conv_now. intros k. reflexivity. Qed.
Lemma ev_text n G s w : EV n G (EText s) w (Ok (VText s, w)).
Proof. apply ev_step, conv_now. reflexivity. Qed.
Lemma ev_num n G s w : EV n G (ENum s) w (Ok (VNum s, w)).
Proof. apply ev_step, conv_now. reflexivity. Qed.
Lemma ev_path n G a c w : is_variant p (named n a) c = true -> EV n G (EPath a c) w (Ok (VMake (named n a) c [], w)).
Proof. intros H. apply ev_step, conv_now. intros k. cbn [eval_step]. rewrite H. reflexivity. Qed.
Lemma ev_some n G e w R1 R : EV n G e w R1 -> and_then R1 R (fun v w1 => R = Ok (some v, w1)) -> EV n G (ECall (EVar !"Some") [e]) w R.
Proof.
  intros H1 H. apply ev_step. cbn [eval_step]. change (eqb_bytes !"Some" !"Some") with true. cbv iota. eapply conv_seq.
  - eapply (evs_cons n G e [] w R1 (match R1 with Ok (v, w1) => Ok ([v], w1) | Err => Err | Panic => Panic end)); [exact H1|].
    destruct R1 as [[v w1]| |]; cbn [and_then]; [|reflexivity..]. eexists. split; [apply evs_nil|]. reflexivity.
  - destruct R1 as [[v w1]| |]; cbn [and_then] in *; [|exact H..]. subst R. apply conv_now. reflexivity.
Qed.
Lemma ev_assoc n G a f args w R1 R : EVs n G args w R1 -> and_then R1 R (fun vs w1 => Assoc (named n a) f vs w1 R) -> EV n G (ECall (EPath a f) args) w R.
Proof. intros H1 H. apply ev_step. cbn [eval_step]. eapply conv_seq; [exact H1|exact H]. Qed.
Lemma ev_method n G e f args w R1 R : EV n G e w R1 ->
  and_then R1 R (fun v w1 => exists R2, EVs n G args w1 R2 /\ and_then R2 R (fun vs w2 => Method v f vs w2 R)) -> EV n G (EMethod e f args) w R.
Proof.
  intros H1 H. apply ev_step. cbn [eval_step]. eapply conv_seq; [exact H1|]. destruct R1 as [[v w1]| |]; cbn [and_then] in *; [|exact H..].
  destruct H as (R2 & H2 & H). eapply conv_seq; [exact H2|exact H].
Qed.
Lemma ev_call0 n G e f w R1 R : EV n G e w R1 -> and_then R1 R (fun v w1 => Method v f [] w1 R) -> EV n G (EMethod e f []) w R.
Proof.
  intros H1 H. eapply ev_method; [exact H1|]. destruct R1 as [[v w1]| |]; cbn [and_then] in *; [|exact H..]. eexists. split; [apply evs_nil|]. exact H.
Qed.
Lemma ev_call1 n G e f x w v w1 R : EV n G e w (Ok (v, w1)) -> forall u, EV n G x w1 (Ok (u, w1)) -> Method v f [u] w1 R -> EV n G (EMethod e f [x]) w R.
Proof.
  intros H1 u H2 H. eapply ev_method; [exact H1|]. cbn [and_then]. eexists. split; [eapply evs_cons; [exact H2|]; cbn [and_then]; eexists; split; [apply evs_nil|reflexivity]|]. exact H.
Qed.
Lemma ev_field n G e x w a fs w1 v : EV n G e w (Ok (VStruct a fs, w1)) -> hget x fs = Some v -> EV n G (EField e x) w (Ok (v, w1)).
Proof. intros H1 H. apply ev_step. cbn [eval_step]. eapply conv_seq; [exact H1|]. cbn [and_then]. apply conv_now. intros k. rewrite H. reflexivity. Qed.
Lemma ev_ref n G e w R : EV n G e w R -> EV n G (ERef e) w R.
Proof. intros H. apply ev_step. exact H. Qed.
Lemma ev_deref n G e w v w1 u : EV n G e w (Ok (v, w1)) -> (match v with VBox v => v | _ => v end) = u -> EV n G (EDeref e) w (Ok (u, w1)).
Proof. intros H <-. apply ev_step. cbn [eval_step]. eapply conv_seq; [exact H|]. cbn [and_then]. apply conv_now. reflexivity. Qed.
Lemma ev_unsafe n G e w R : EV n G e w R -> EV n G (EUnsafe e) w R.
Proof. intros H. apply ev_step. exact H. Qed.
Lemma ev_block n G e w R : EV n G e w R -> EV n G (EBlock e) w R.
Proof. intros H. apply ev_step. exact H. Qed.
Lemma ev_pair n G a b w v w1 R : EV n G a w (Ok (v, w1)) -> forall R2, EV n G b w1 R2 -> and_then R2 R (fun u w2 => R = Ok (VPair v u, w2)) -> EV n G (EPair a b) w R.
Proof.
  intros H1 R2 H2 H. apply ev_step. cbn [eval_step]. eapply conv_seq; [exact H1|]. cbn [and_then]. eapply conv_seq; [exact H2|].
  destruct R2 as [[u w2]| |]; cbn [and_then] in *; [|exact H..]. subst R. apply conv_now. reflexivity.
Qed.
Lemma ev_struct n G a xs fs w : fields_of G xs = Some fs -> EV n G (EStruct a xs) w (Ok (VStruct (named n a) fs, w)).
Proof. intros H. apply ev_step, conv_now. intros k. cbn [eval_step]. rewrite H. reflexivity. Qed.
Lemma ev_closure n G b x e w : EV n G (EClosure b x e) w (Ok (VClosure n x e G, w)).
Proof. apply ev_step, conv_now. reflexivity. Qed.
Lemma ev_match n G e arms w v w1 R : EV n G e w (Ok (v, w1)) ->
  match arm_for n v arms with Some (H, a) => EV n (H ++ G) a w1 R | None => False end -> EV n G (EMatch e arms) w R.
Proof.
  intros H1 H. apply ev_step. cbn [eval_step]. eapply conv_seq; [exact H1|]. cbn [and_then]. destruct (arm_for n v arms) as [[H2 a]|]; [exact H|destruct H].
Qed.
Lemma ev_iflet n G q e a b w R1 R : EV n G e w R1 ->
  and_then R1 R (fun v w1 => match bound n q v with Some H => EV n (H ++ G) a w1 R | None => EV n G b w1 R end) -> EV n G (EIfLet q e a b) w R.
Proof.
  intros H1 H. apply ev_step. cbn [eval_step]. eapply conv_seq; [exact H1|]. destruct R1 as [[v w1]| |]; cbn [and_then] in *; [|exact H..].
  destruct (bound n q v); exact H.
Qed.
Lemma ev_macro n G x es w : EV n G (EMacro x es) w Panic.
Proof. apply ev_step, conv_now. reflexivity. Qed.
Lemma ev_index n G a i w l w1 k R : EV n G a w (Ok (VList l, w1)) -> forall w2, EV n G i w1 (Ok (VNum k, w2)) ->
  R = match zget l k with Some x => Ok (x, w2) | None => Panic end -> EV n G (EIndex a i) w R.
Proof.
  intros H1 w2 H2 ->. apply ev_step. cbn [eval_step]. eapply conv_seq; [exact H1|]. cbn [and_then]. eapply conv_seq; [exact H2|]. cbn [and_then].
  apply conv_now. intros j. destruct (zget l k); reflexivity.
Qed.
Lemma ev_array n G es w R1 R : EVs n G es w R1 -> and_then R1 R (fun vs w1 => R = Ok (VList vs, w1)) -> EV n G (EArray es) w R.
Proof.
  intros H1 H. apply ev_step. cbn [eval_step]. eapply conv_seq; [exact H1|]. destruct R1 as [[vs w1]| |]; cbn [and_then] in *; [|exact H..]. subst R. apply conv_now. reflexivity.
Qed.

Lemma lets_nil n G w : Lets n G [] w (Ok (G, w)).
Proof. apply conv_now. reflexivity. Qed.
Lemma lets_let n G b q e ss w R1 R : EV n G e w R1 ->
  and_then R1 R (fun v w1 => match bound n q v with Some H => Lets n (H ++ G) ss w1 R | None => False end) -> Lets n G (SLet b q e :: ss) w R.
Proof.
  intros H1 H. unfold Lets. cbn [lets]. eapply conv_seq; [exact H1|]. destruct R1 as [[v w1]| |]; cbn [and_then] in *; [|exact H..].
  destruct (bound n q v); [exact H|destruct H].
Qed.
Lemma lets_expr n G e ss w R1 R : EV n G e w R1 -> and_then R1 R (fun _ w1 => Lets n G ss w1 R) -> Lets n G (SExpr e :: ss) w R.
Proof. intros H1 H. unfold Lets. cbn [lets]. eapply conv_seq; [exact H1|exact H]. Qed.

Definition start_env (g : fn) (self : option val) (args : list val) : env :=
  (match self with Some v => [(!"self", v)] | None => [] end) ++ combine (map fst (f_args g)) args.
Lemma enter_rule n g self args w R1 R : Lets n (start_env g self args) (f_lets g) w R1 ->
  and_then R1 R (fun G w1 => match f_value g with
    | None => R = Ok (VUnit, w1)
    | Some e => exists R2, EV n G e w1 R2 /\ and_then R2 R (fun v w2 => R = Ok (match f_ret g with Some t => stamp t v | None => v end, w2))
    end) -> Enter n g self args w R.
Proof.
  intros H1 H. unfold Enter, enter. eapply conv_seq; [exact H1|]. destruct R1 as [[G w1]| |]; cbn [and_then] in *; [|exact H..].
  destruct (f_value g) as [e|].
  - destruct H as (R2 & H2 & H). eapply conv_seq; [exact H2|]. destruct R2 as [[v w2]| |]; cbn [and_then] in *; [|exact H..]. subst R. apply conv_now. reflexivity.
  - subst R. apply conv_now. reflexivity.
Qed.

Lemma assoc_core m f g vs w : core_fn m f = Some g -> Assoc m f vs w (core_do iter r told g vs w).
Proof. intros H. apply conv_now. intros k. unfold assoc. rewrite H. reflexivity. Qed.
Lemma assoc_guard g v u w : In g guards -> Assoc g !"new" [v; u] w (Ok (VGuard g None v, w)).
Proof.
  intros I. apply conv_now. intros k. unfold guards in I. cbn [map In] in I. unfold assoc.
  repeat (destruct I as [<-|I]; [reflexivity|]). destruct I.
Qed.

(** methods of the standard library *)
Lemma method_unwrap a c xs w : In a holders -> Method (VMake a c xs) !"unwrap" [] w (match xs with [x] => Ok (x, w) | _ => Panic end).
Proof.
  intros I. apply conv_now. intros k. cbn [method_of]. unfold holders in I. cbn [map In] in I.
  repeat (destruct I as [<-|I]; [destruct xs as [|? [|? ?]]; reflexivity|]). destruct I.
Qed.
Lemma method_into_value a c xs w : In a holders -> Method (VMake a c xs) !"into_value" [] w (Ok (match xs with [x] => some x | _ => none end, w)).
Proof. intros I. apply conv_now. intros k. cbn [method_of]. unfold holders in I. cbn [map In] in I. repeat (destruct I as [<-|I]; [reflexivity|]). destruct I. Qed.
Lemma method_into_qv a c xs w : In a holders -> Method (VMake a c xs) !"into_qv" [] w (Ok (VMake !"Qv" c xs, w)).
Proof. intros I. apply conv_now. intros k. cbn [method_of]. unfold holders in I. cbn [map In] in I. repeat (destruct I as [<-|I]; [reflexivity|]). destruct I. Qed.
Lemma method_map_none a c n x e G w : In a holders -> Method (VMake a c []) !"map" [VClosure n x e G] w (Ok (VMake a c [], w)).
Proof. intros I. apply conv_now. intros k. cbn [method_of]. unfold holders in I. cbn [map In] in I. repeat (destruct I as [<-|I]; [reflexivity|]). destruct I. Qed.
Lemma method_map a c n x e G v w R1 R : In a holders -> EV n ((x, v) :: G) e w R1 -> and_then R1 R (fun u w1 => R = Ok (VMake a c [u], w1)) ->
  Method (VMake a c [v]) !"map" [VClosure n x e G] w R.
Proof.
  intros I H1 H.
  assert (X : conv (fun k => seq (eval k n ((x, v) :: G) e) (fun y => ret (VMake a c [y]))) w R).
  { eapply conv_seq; [exact H1|]. destruct R1 as [[u w1]| |]; cbn [and_then] in *; [|exact H..]. subst R. apply conv_now. reflexivity. }
  eapply conv_ext; [|exact X]. intros k. cbn [method_of]. unfold holders in I. cbn [map In] in I. repeat (destruct I as [<-|I]; [reflexivity|]). destruct I.
Qed.

(* ------------------------------------------------------------------ *)
(** * Functions of parameters *)

Lemma named_closed n a : eqb_bytes a !"Self" = false -> named n a = a.
Proof. intros H. unfold named. rewrite H. reflexivity. Qed.

Ltac shut := vm_compute; reflexivity.
Ltac look := first [apply hget_here; shut | apply hget_next; [shut|look] | assumption].
Ltac holder := vm_compute; tauto.

(** [self] is a struct with a pointer *)
Definition points_to (v : val) (q : ptr) : Prop := exists a fs, v = VStruct a fs /\ hget !"ptr" fs = Some (VPtr q).

Lemma self_ptr n G w v q : hget !"self" G = Some v -> points_to v q -> EV n G (EField (EVar !"self") !"ptr") w (Ok (VPtr q, w)).
Proof. intros H (a & fs & -> & P). eapply ev_field; [apply ev_var; [shut|exact H]|exact P]. Qed.

Lemma asked_rule n G w v q at_ f g key : hget !"self" G = Some v -> points_to v q -> core_fn (module at_) f = Some g ->
  EV n G (asked at_ f key) w (core_do iter r told g [VPtr q; VText key] w).
Proof.
  intros H P C. unfold asked. eapply ev_assoc.
  - eapply evs_cons; [eapply self_ptr; [exact H|exact P]|]. cbn [and_then]. eexists. split; [|].
    + eapply evs_ok; [apply ev_text|apply evs_nil].
    + reflexivity.
  - cbn [and_then]. rewrite named_closed by (destruct at_; shut). apply assoc_core, C.
Qed.
Lemma unwrap_rule {A} n G e (F : A -> val) o w w1 : EV n G e w (Ok (of_opt F o, w1)) ->
  EV n G (EMethod e !"unwrap" []) w (match o with Some a => Ok (F a, w1) | None => Panic end).
Proof. intros H. eapply ev_call0; [exact H|]. cbn [and_then]. destruct o; cbn [of_opt]; unfold some, none; eapply conv_R; [apply method_unwrap; holder|reflexivity|apply method_unwrap; holder|reflexivity]. Qed.

Lemma from_qv_rule a v w : In a [!"NullOr"; !"UndefOr"] -> Assoc a !"from_qv" [v] w (from_qv a v w).
Proof. intros I. apply conv_now. intros k. cbn [In] in I. repeat (destruct I as [<-|I]; [reflexivity|]). destruct I. Qed.

(** from [Qv] to what the marks say *)
Lemma unmark_rule {A} n G (F : A -> val) vt q w : hget !"qv" G = Some (of_qv F q) -> EV n G (unmark vt) w (gives (as_marked F vt) w (unwrapped vt (Some q))).
Proof.
  intros H. assert (V : EV n G (EVar !"qv") w (Ok (of_qv F q, w))) by (apply ev_var; [shut|exact H]).
  destruct vt; cbn [unmark].
  - eapply conv_R; [eapply (unwrap_rule n G _ F (match q with Val a => Some a | _ => None end) w w)|destruct q; reflexivity].
    eapply ev_call0; [exact V|]. cbn [and_then]. destruct q; cbn [of_qv]; apply method_into_value; holder.
  - eapply conv_R; [eapply (unwrap_rule n G _ (fun x => x) (match q with Val a => Some (VMake !"NullOr" !"Val" [F a]) | Null => Some (VMake !"NullOr" !"Null" []) | _ => None end) w w)|destruct q; reflexivity].
    eapply ev_assoc; [eapply evs_cons; [exact V|]; cbn [and_then]; eexists; split; [apply evs_nil|reflexivity]|]. cbn [and_then]. rewrite named_closed by shut.
    eapply conv_R; [apply from_qv_rule; left; reflexivity|]. destruct q; reflexivity.
  - eapply conv_R; [eapply (unwrap_rule n G _ (fun x => x) (match q with Val a => Some (VMake !"UndefOr" !"Val" [F a]) | Undefined => Some (VMake !"UndefOr" !"Undefined" []) | _ => None end) w w)|destruct q; reflexivity].
    eapply ev_assoc; [eapply evs_cons; [exact V|]; cbn [and_then]; eexists; split; [apply evs_nil|reflexivity]|]. cbn [and_then]. rewrite named_closed by shut.
    eapply conv_R; [apply from_qv_rule; right; left; reflexivity|]. destruct q; reflexivity.
  - eapply conv_R; [exact V|]. destruct q; reflexivity.
Qed.

(** values no guard is in *)
Lemma stamp_make0 t a c : stamp t (VMake a c []) = VMake a c [].
Proof. destruct t as [|? u| | | | |]; [reflexivity|destruct u; reflexivity|reflexivity..]. Qed.
Lemma stamp_make1 t m a c v : stamp t v = v -> stamp (TyApp m t) (VMake a c [v]) = VMake a c [v].
Proof. intros H. cbn [stamp]. rewrite H. destruct t; reflexivity. Qed.
Lemma stamp_marked {A} (F : A -> val) vt t q : (forall a u, stamp u (F a) = F a) -> stamp (marked vt t) (as_marked F vt q) = as_marked F vt q.
Proof.
  intros H. destruct vt, q; cbn [marked as_marked of_qv]; try apply H; try apply stamp_make0; apply stamp_make1, H.
Qed.

Lemma getter_rule {A} n nm rc at_ f g vt key t self q w (F : A -> val) o w1 :
  points_to self q -> core_fn (module at_) f = Some g ->
  core_do iter r told g [VPtr q; VText key] w = Ok (of_opt (of_qv F) o, w1) -> (forall a u, stamp u (F a) = F a) ->
  Enter n (getter nm rc at_ f vt key t) (Some self) [] w (gives (as_marked F vt) w1 (unwrapped vt o)).
Proof.
  intros P C D N. eapply (enter_rule n _ (Some self) [] w (match o with Some q => Ok ([(!"qv", of_qv F q); (!"self", self)], w1) | None => Panic end)).
  - cbn [getter public f_lets start_env f_args map combine app]. eapply lets_let.
    + apply (unwrap_rule n _ _ (of_qv F) o w w1). rewrite <- D. eapply asked_rule; [look|exact P|exact C].
    + destruct o; cbn [and_then bound app]; [apply lets_nil|reflexivity].
  - cbn [getter public f_value f_ret]. destruct o as [q0|]; cbn [and_then]; [|reflexivity].
    eexists. split; [apply (unmark_rule n _ F vt q0); look|]. destruct (unwrapped vt (Some q0)); cbn [gives and_then]; [|reflexivity..]. rewrite (stamp_marked F vt t a N). reflexivity.
Qed.

Lemma core_get at_ t : by_reference t = false -> core_fn (module at_) (!"get_" ++ nick t) = Some (FGet t).
Proof. destruct t; try discriminate; intros _; destruct at_; shut. Qed.
Lemma core_get_ref at_ t : by_reference t = true -> core_fn (module at_) (!"get_immutable_" ++ nick t) = Some (FGet t).
Proof. destruct t; try discriminate; intros _; destruct at_; shut. Qed.
Lemma core_default at_ t : core_fn (module at_) (!"get_" ++ nick t ++ !"_def") = Some (FDefault t).
Proof. destruct t, at_; shut. Qed.
Lemma core_mutable at_ t : at_ <> AtCItem -> by_reference t = true -> core_fn (module at_) (!"get_mutable_" ++ nick t) = Some (FMutable t).
Proof. destruct at_; intros N; try contradiction; destruct t; try discriminate; intros _; shut. Qed.
Lemma core_set at_ t : at_ <> AtCItem -> core_fn (module at_) (!"set_" ++ nick t) = Some (FSet t).
Proof. destruct at_; intros N; try contradiction; destruct t; shut. Qed.

Lemma stamp_of c u : stamp u (VOf c) = VOf c. Proof. destruct u as [|? u| | | | |]; [reflexivity|destruct u; reflexivity|reflexivity..]. Qed.
Lemma stamp_text c u : stamp u (VText c) = VText c. Proof. destruct u as [|? u| | | | |]; [reflexivity|destruct u; reflexivity|reflexivity..]. Qed.

Lemma read_rule n nm at_ t vt key f self q w : points_to self q -> written (Meth nm [] (CRead at_ t vt key) [] []) f ->
  Enter n f (Some self) [] w (gives (as_marked VOf vt) w (unwrapped vt (get_as t (param_at r q key)))).
Proof.
  intros P W. inversion W; subst.
  - eapply getter_rule; [exact P|apply core_get; assumption|reflexivity|apply stamp_of].
  - eapply getter_rule; [exact P|apply core_get_ref; assumption|reflexivity|apply stamp_of].
Qed.
Lemma default_rule n nm at_ t vt key f self q w : points_to self q -> written (Meth nm [] (CDefault at_ t vt key) [] []) f ->
  Enter n f (Some self) [] w (gives (as_marked VOf vt) w (unwrapped vt (get_as t (default_at r q key)))).
Proof.
  intros P W. inversion W; subst.
  - eapply getter_rule; [exact P|apply core_default|reflexivity|apply stamp_of].
  - eapply getter_rule; [exact P|apply core_default|reflexivity|apply stamp_of].
Qed.
Lemma write_rule n nm at_ t vt key f self q w : at_ <> AtCItem -> by_reference t = true -> points_to self q -> written (Meth nm [] (CWrite at_ t vt key) [] []) f ->
  Enter n f (Some self) [] w (gives (as_marked VOf vt) (w ++ [EWrite (loc_of q) t key]) (unwrapped vt (get_as t (param_at r q key)))).
Proof. intros A B P W. inversion W; subst. eapply getter_rule; [exact P|apply core_mutable; assumption|reflexivity|apply stamp_of]. Qed.
Lemma ref_id_rule n nm at_ vt key f self l s w : at_ <> AtRoot -> points_to self (PItem l s) -> written (Meth nm [] (CRefId at_ vt key) [] []) f ->
  Enter n f (Some self) [] w (gives (as_marked (fun s => VText s) vt) w (unwrapped vt (spot_ref_id s key))).
Proof. intros A P W. inversion W; subst. eapply (getter_rule _ _ _ _ _ FRefId); [exact P|destruct at_; [contradiction|shut..]|reflexivity|apply stamp_text]. Qed.

(** back to [Qv] *)
Lemma mark_rule {A} n G x (F : A -> val) vt q w : eqb_bytes x !"None" = false -> hget x G = Some (as_marked F vt q) -> unwrapped vt (Some q) = Ok q ->
  EV n G (mark vt x) w (Ok (of_qv F q, w)).
Proof.
  intros N H U. pose proof (ev_var n G x w _ N H) as V. destruct vt; cbn [mark].
  - destruct q; try discriminate U. eapply ev_assoc; [eapply evs_cons; [exact V|]; cbn [and_then]; eexists; split; [apply evs_nil|reflexivity]|].
    cbn [and_then]. rewrite named_closed by shut. apply conv_now. reflexivity.
  - eapply ev_call0; [exact V|]. cbn [and_then]. destruct q; try discriminate U; cbn [as_marked of_qv]; apply method_into_qv; holder.
  - eapply ev_call0; [exact V|]. cbn [and_then]. destruct q; try discriminate U; cbn [as_marked of_qv]; apply method_into_qv; holder.
  - eapply ev_call0; [exact V|]. cbn [and_then]. destruct q; cbn [as_marked of_qv]; apply method_into_qv; holder.
Qed.

Lemma set_rule {A} n nm x at_ t vt key f self q w (F : A -> val) c : at_ <> AtCItem -> eqb_bytes x !"None" = false -> eqb_bytes !"self" x = false ->
  points_to self q -> unwrapped vt (Some c) = Ok c -> written (Meth nm [x] (CSet at_ t vt key) [] []) f ->
  Enter n f (Some self) [as_marked F vt c] w (Ok (VUnit, w ++ [ESet (loc_of q) t key (of_qv F c)])).
Proof.
  intros N X Y P U W. inversion W; subst. eapply (enter_rule n _ _ _ w (Ok ([(!"self", self); (x, as_marked F vt c)], w ++ [ESet (loc_of q) t key (of_qv F c)]))).
  - cbn [public f_lets start_env f_args map combine app fst]. eapply lets_expr.
    + eapply (ev_assoc _ _ _ _ _ _ (Ok ([VPtr q; VText key; of_qv F c], w))).
      * eapply evs_cons; [eapply self_ptr; [look|exact P]|]. cbn [and_then]. eexists. split; [|].
        { eapply evs_cons; [apply ev_text|]. cbn [and_then]. eexists. split; [|].
          { eapply evs_cons; [eapply (mark_rule n _ x F vt c); [exact X| |exact U]|].
            - apply hget_next; [exact Y|]. apply hget_here. apply eqb_bytes_refl.
            - cbn [and_then]. eexists. split; [apply evs_nil|reflexivity]. }
          reflexivity. }
        reflexivity.
      * cbn [and_then]. rewrite named_closed by (destruct at_; shut). eapply assoc_core, core_set, N.
    + cbn [core_do and_then]. apply lets_nil.
  - cbn [public f_value and_then]. reflexivity.
Qed.

(* ------------------------------------------------------------------ *)
(** * Lists and tables *)

Lemma guarded_rule n G g e v u w w1 : In g guards -> EV n G e w (Ok (v, w1)) -> hget !"self" G = Some u -> EV n G (guarded g e) w (Ok (VGuard g None v, w1)).
Proof.
  intros I H S. unfold guarded, path. eapply ev_assoc.
  - eapply evs_cons; [exact H|]. cbn [and_then]. eexists. split; [|].
    + eapply evs_ok; [apply ev_var; [shut|exact S]|apply evs_nil].
    + reflexivity.
  - cbn [and_then]. rewrite named_closed; [apply assoc_guard, I|]. unfold guards in I. cbn [map In] in I. repeat (destruct I as [<-|I]; [shut|]). destruct I.
Qed.
Lemma guarded_panic n G g e w : EV n G e w Panic -> EV n G (guarded g e) w Panic.
Proof. intros H. unfold guarded, path. eapply ev_assoc; [eapply evs_cons; [exact H|reflexivity]|reflexivity]. Qed.

(** [v.f()] without arguments *)
Lemma method_rule n G e f w v u w1 : EV n G e w (Ok (v, w)) -> Method v f [] w (Ok (u, w1)) -> EV n G (EMethod e f []) w (Ok (u, w1)).
Proof. intros H M. eapply ev_call0; [exact H|exact M]. Qed.
Lemma def_rule w : Method (VPtr PRoot) !"def" [] w (Ok (VPtr PDef, w)).
Proof. apply conv_now. reflexivity. Qed.

(** [n::f] makes a struct around a pointer *)
Definition makes (n f : text) (q : ptr) : Prop := n <> !"Self" /\ forall w, Assoc n f [VPtr q] w (Ok (VStruct n [(!"ptr", VPtr q)], w)).
Lemma makes_rule n G a f e q w w1 : makes a f q -> EV n G e w (Ok (VPtr q, w1)) -> EV n G (path a f [e]) w (Ok (VStruct a [(!"ptr", VPtr q)], w1)).
Proof.
  intros (N & A) H. unfold path. eapply ev_assoc; [eapply evs_cons; [exact H|]; cbn [and_then]; eexists; split; [apply evs_nil|reflexivity]|].
  cbn [and_then]. rewrite named_closed; [apply A|]. destruct (eqb_bytes a !"Self") eqn:E; [apply eqb_bytes_eq in E; contradiction|reflexivity].
Qed.
Lemma path_panic n G a f e w : EV n G e w Panic -> EV n G (path a f [e]) w Panic.
Proof. intros H. unfold path. eapply ev_assoc; [eapply evs_cons; [exact H|reflexivity]|reflexivity]. Qed.

Lemma table_rule n nm key n' f self w : points_to self PRoot -> n' <> !"Self" -> (forall t, makes n' !"new" (PTable t)) -> written (Meth nm [] (CTable key) [n'] []) f ->
  Enter n f (Some self) [] w (match root_table r key with Some t => Ok (VGuard !"CTableConst" (Some n') (VStruct n' [(!"ptr", VPtr (PTable t))]), w) | None => Panic end).
Proof.
  intros P N K W. inversion W; subst.
  assert (X : forall G, hget !"self" G = Some self ->
    EV n G (EMethod (path !"root" !"get_table" [call0 (EField (EVar !"self") !"ptr") "def"; EText key]) !"unwrap" []) w (match root_table r key with Some t => Ok (VPtr (PTable t), w) | None => Panic end)).
  { intros G H. apply (unwrap_rule n G _ (fun t => VPtr (PTable t)) (root_table r key) w w). unfold path. eapply ev_assoc.
    - eapply evs_cons; [unfold call0; eapply method_rule; [eapply self_ptr; [exact H|exact P]|apply def_rule]|].
      cbn [and_then]. eexists. split; [eapply evs_cons; [apply ev_text|]; cbn [and_then]; eexists; split; [apply evs_nil|reflexivity]|reflexivity].
    - cbn [and_then]. rewrite named_closed by shut. eapply conv_R; [apply (assoc_core _ _ FTable); shut|reflexivity]. }
  eapply (enter_rule n _ (Some self) [] w (match root_table r key with Some t => Ok ([(!"t", VStruct n' [(!"ptr", VPtr (PTable t))]); (!"self", self)], w) | None => Panic end)).
  - cbn [public f_lets start_env f_args map combine app]. specialize (X [(!"self", self)] ltac:(look)). destruct (root_table r key) as [t|].
    + eapply lets_let; [eapply makes_rule; [apply K|exact X]|]. cbn [and_then bound app]. apply lets_nil.
    + eapply lets_let; [eapply path_panic; exact X|reflexivity].
  - destruct (root_table r key) as [t|]; cbn [and_then public f_value f_ret]; [|reflexivity]. eexists. split; [eapply guarded_rule; [holder|apply ev_var; [shut|look]|look]|reflexivity].
Qed.

(** the list of constant items a pointer has *)
Definition const_at (q : ptr) (key : name) : option (list citem * def) := match q with PRoot => root_clist r key | PItem _ s => spot_cil s key | _ => None end.
Lemma const_rule n nm at_ key n' f self q w : points_to self q -> (match at_, q with AtRoot, PRoot | AtCItem, PItem _ _ => True | _, _ => False end) ->
  written (Meth nm [] (CConstList at_ key) [n'] []) f ->
  Enter n f (Some self) [] w (match const_at q key with Some c => Ok (VGuard !"CListConst" (Some n') (VPtr (PCList c)), w) | None => Panic end).
Proof.
  intros P A W. inversion W; subst. set (e := EMethod (asked _ _ _) _ _) in *.
  assert (X : EV n [(!"self", self)] e w (match const_at q key with Some c => Ok (VPtr (PCList c), w) | None => Panic end)).
  { unfold e. apply (unwrap_rule n _ _ (fun c => VPtr (PCList c)) (const_at q key) w w).
    eapply conv_R; [eapply (asked_rule _ _ _ _ _ _ _ (match at_ with AtRoot => FCList | _ => FCil end)); [look|exact P|destruct at_; [shut|contradiction|shut]]|].
    destruct at_, q; try destruct A; reflexivity. }
  eapply (enter_rule n _ (Some self) [] w); [apply lets_nil|]. cbn [and_then public f_value f_ret].
  destruct (const_at q key) as [c|].
  - eexists. split; [eapply guarded_rule; [holder|exact X|look]|reflexivity].
  - eexists. split; [apply guarded_panic; exact X|reflexivity].
Qed.

(** a list that may be undefined, as a function of the generated text returns it *)
Definition list_value (q : ptr) (key : name) (n' : text) (items : list (Z * citem)) (d : def) : val := VGuard !"MListConst" (Some n') (VPtr (PMList (loc_of q) key items d)).
Lemma ask_list n at_ G self q key w : at_ <> AtCItem -> hget !"self" G = Some self -> points_to self q ->
  EV n G (EMethod (asked at_ (match at_ with AtRoot => !"get_mlist_const" | _ => !"get_mil_const" end) key) !"unwrap" []) w
    (match list_at r q key with Some l => Ok (of_opt (fun items => VPtr (PMList (loc_of q) key items (snd l))) (fst l), w) | None => Panic end).
Proof.
  intros A H P. apply (unwrap_rule n G _ (fun l => of_opt (fun items => VPtr (PMList (loc_of q) key items (snd l))) (fst l)) (list_at r q key) w w).
  eapply conv_R; [eapply (asked_rule _ _ _ _ _ _ _ FList); [exact H|exact P|destruct at_; [shut|shut|contradiction]]|reflexivity].
Qed.
Lemma list_maybe_rule n nm at_ key n' f self q w : points_to self q -> written (Meth nm [] (CList at_ true key) [n'] []) f ->
  Enter n f (Some self) [] w (match list_at r q key with Some l => Ok (of_opt (fun items => list_value q key n' items (snd l)) (fst l), w) | None => Panic end).
Proof.
  intros P W. inversion W; subst. pose proof (ask_list n at_ [(!"self", self)] self q key w) as X.
  eapply (enter_rule n _ (Some self) [] w (match list_at r q key with Some l => Ok ([(!"mil", of_opt (fun items => VPtr (PMList (loc_of q) key items (snd l))) (fst l)); (!"self", self)], w) | None => Panic end)).
  - cbn [public f_lets start_env f_args map combine app]. eapply lets_let; [apply X; [assumption|look|exact P]|]. destruct (list_at r q key); cbn [and_then bound app]; [apply lets_nil|reflexivity].
  - destruct (list_at r q key) as [[o d]|]; cbn [and_then public f_value f_ret]; [|reflexivity]. cbn [fst snd].
    destruct o as [items|]; cbn [of_opt].
    + eexists. split; [eapply ev_call1; [apply ev_var; [shut|look]|apply ev_closure|]; eapply method_map; [holder|eapply guarded_rule; [holder|apply ev_var; [shut|look]|look]|]; cbn [and_then]; reflexivity|reflexivity].
    + eexists. split; [eapply ev_call1; [apply ev_var; [shut|look]|apply ev_closure|]; apply method_map_none; holder|reflexivity].
Qed.
Lemma list_rule n nm at_ key n' f self q w : points_to self q -> written (Meth nm [] (CList at_ false key) [n'] []) f ->
  Enter n f (Some self) [] w (match list_at r q key with Some (Some items, d) => Ok (list_value q key n' items d, w) | _ => Panic end).
Proof.
  intros P W. inversion W; subst. pose proof (ask_list n at_ [(!"self", self)] self q key w) as X.
  eapply (enter_rule n _ (Some self) [] w (match list_at r q key with Some (Some items, d) => Ok ([(!"mil", VPtr (PMList (loc_of q) key items d)); (!"self", self)], w) | _ => Panic end)).
  - cbn [public f_lets start_env f_args map combine app]. specialize (X ltac:(assumption) ltac:(look) P). destruct (list_at r q key) as [[[items|] d]|].
    + eapply lets_let; [eapply (unwrap_rule n _ _ (fun x => x) (Some _)); exact X|]. cbn [and_then bound app]. apply lets_nil.
    + eapply lets_let; [eapply (unwrap_rule n _ _ (fun x : val => x) None); exact X|]. reflexivity.
    + eapply lets_let; [eapply ev_call0; [exact X|reflexivity]|]. reflexivity.
  - destruct (list_at r q key) as [[[items|] d]|]; cbn [and_then public f_value f_ret]; [|reflexivity..]. eexists. split; [eapply guarded_rule; [holder|apply ev_var; [shut|look]|look]|reflexivity].
Qed.
Lemma list_mut_rule n nm at_ key n' f self q w : points_to self q -> written (Meth nm [] (CListMut at_ key) [n'] []) f ->
  Enter n f (Some self) [] w (match open_at r q key with
    | Some (items, d) => Ok (VGuard !"MListMut" (Some n') (VPtr (PMList (loc_of q) key items d)), w ++ [EOpen (loc_of q) key])
    | None => Panic
    end).
Proof.
  intros P W. inversion W; subst.
  assert (C : core_fn (module at_) (match at_ with AtRoot => !"get_mlist_mut" | _ => !"get_mil_mut" end) = Some FOpen) by (destruct at_; [shut|shut|contradiction]).
  match goal with H : In x _ |- _ => cbn [In] in H; destruct H as [<-|[<-|[]]] end.
  - eapply (enter_rule n _ (Some self) [] w (match open_at r q key with Some (items, d) => Ok ([(!"mil", VPtr (PMList (loc_of q) key items d)); (!"self", self)], w ++ [EOpen (loc_of q) key]) | None => Panic end)).
    + cbn [public f_lets start_env f_args map combine app]. eapply lets_let.
      * apply (unwrap_rule n _ _ (fun l => VPtr (PMList (loc_of q) key (fst l) (snd l))) (open_at r q key) w (w ++ [EOpen (loc_of q) key])).
        eapply conv_R; [eapply asked_rule; [look|exact P|exact C]|reflexivity].
      * destruct (open_at r q key) as [[items d]|]; cbn [and_then bound app fst snd]; [apply lets_nil|reflexivity].
    + destruct (open_at r q key) as [[items d]|]; cbn [and_then public f_value f_ret]; [|reflexivity]. eexists. split; [eapply guarded_rule; [holder|apply ev_var; [shut|look]|look]|reflexivity].
  - eapply (enter_rule n _ (Some self) [] w (match open_at r q key with Some (items, d) => Ok ([(!"p", VPtr (PMList (loc_of q) key items d)); (!"self", self)], w ++ [EOpen (loc_of q) key]) | None => Panic end)).
    + cbn [public f_lets start_env f_args map combine app]. eapply lets_let.
      * apply (unwrap_rule n _ _ (fun l => VPtr (PMList (loc_of q) key (fst l) (snd l))) (open_at r q key) w (w ++ [EOpen (loc_of q) key])).
        eapply conv_R; [eapply asked_rule; [look|exact P|exact C]|reflexivity].
      * destruct (open_at r q key) as [[items d]|]; cbn [and_then bound app fst snd]; [apply lets_nil|reflexivity].
    + destruct (open_at r q key) as [[items d]|]; cbn [and_then public f_value f_ret]; [|reflexivity]. eexists. split; [eapply guarded_rule; [holder|apply ev_var; [shut|look]|look]|reflexivity].
Qed.

(* ------------------------------------------------------------------ *)
(** * References and enums *)

(** a row, in the struct made for it *)
Definition row_value (n' : text) (s : spot) : val := VStruct n' [(!"ptr", VPtr (PItem [] s))].

Lemma ref_rule n nm at_ vt key n' f self l s w : at_ <> AtRoot -> points_to self (PItem l s) -> (forall s, makes n' !"from" (PItem [] s)) ->
  written (Meth nm [] (CRef at_ vt key) [n'] [n']) f ->
  Enter n f (Some self) [] w (gives (as_marked (row_value n') vt) w (o <- spot_ref r s key ; unwrapped vt o)).
Proof.
  intros A P K W. inversion W; subst.
  assert (C : core_fn (module at_) !"get_ref" = Some FRef) by (destruct at_; [contradiction|shut..]).
  assert (SP : spot_ref r s key <> Err) by (unfold spot_ref; destruct (spot_ref_id s key) as [[]|]; try discriminate; destruct (root_table r key); discriminate).
  eapply (enter_rule n _ (Some self) [] w (match spot_ref r s key with Ok (Some q) => Ok ([(!"qv", of_qv (fun s => VPtr (PItem [] s)) q); (!"self", self)], w) | _ => Panic end)).
  - cbn [public f_lets start_env f_args map combine app]. pose proof (asked_rule n [(!"self", self)] w self (PItem l s) at_ !"get_ref" FRef key ltac:(look) P C) as X. cbn [core_do] in X.
    unfold let_qv. destruct (spot_ref r s key) as [o| |]; [|contradiction|].
    + cbn [Base.bind] in X. eapply lets_let; [apply (unwrap_rule n _ _ _ o w w X)|]. destruct o; cbn [and_then bound app]; [apply lets_nil|reflexivity].
    + eapply lets_let; [eapply ev_call0; [exact X|reflexivity]|reflexivity].
  - destruct (spot_ref r s key) as [[q|]| |]; [|reflexivity|contradiction|reflexivity]. cbn [and_then public f_value f_ret Base.bind].
    assert (U : forall vt', EV n [(!"qv", of_qv (fun s => VPtr (PItem [] s)) q); (!"self", self)] (unmark vt') w (gives (as_marked (fun s => VPtr (PItem [] s)) vt') w (unwrapped vt' (Some q)))).
    { intros vt'. apply unmark_rule. look. }
    destruct vt.
    + specialize (U Normal). destruct q; cbn [unwrapped gives] in *; [|eexists; split; [apply path_panic; exact U|reflexivity]..].
      eexists. split; [eapply makes_rule; [apply K|exact U]|reflexivity].
    + specialize (U Nullable). destruct q; cbn [unwrapped gives as_marked of_qv] in *.
      * eexists. split; [eapply ev_call1; [exact U|apply ev_closure|]; eapply method_map; [holder|eapply makes_rule; [apply K|apply ev_var; [shut|look]]|reflexivity]|reflexivity].
      * eexists. split; [eapply ev_method; [exact U|reflexivity]|reflexivity].
      * eexists. split; [eapply ev_call1; [exact U|apply ev_closure|]; apply method_map_none; holder|reflexivity].
    + specialize (U Undefiable). destruct q; cbn [unwrapped gives as_marked of_qv] in *.
      * eexists. split; [eapply ev_call1; [exact U|apply ev_closure|]; eapply method_map; [holder|eapply makes_rule; [apply K|apply ev_var; [shut|look]]|reflexivity]|reflexivity].
      * eexists. split; [eapply ev_call1; [exact U|apply ev_closure|]; apply method_map_none; holder|reflexivity].
      * eexists. split; [eapply ev_method; [exact U|reflexivity]|reflexivity].
    + specialize (U UndefNullable). destruct q; cbn [unwrapped gives as_marked of_qv] in *.
      * eexists. split; [eapply ev_call1; [exact U|apply ev_closure|]; eapply method_map; [holder|eapply makes_rule; [apply K|apply ev_var; [shut|look]]|reflexivity]|reflexivity].
      * eexists. split; [eapply ev_call1; [exact U|apply ev_closure|]; apply method_map_none; holder|reflexivity].
      * eexists. split; [eapply ev_call1; [exact U|apply ev_closure|]; apply method_map_none; holder|reflexivity].
Qed.

Lemma enum_rule n nm at_ n' f self l s w R : at_ <> AtRoot -> points_to self (PItem l s) -> n' <> !"Self" ->
  (match spot_enum iter s with
   | None => R = Panic
   | Some e => match spot_ref r s (fst e) with
               | Ok (Some (Val row)) => exists R', Assoc n' !"new" [VText (fst e); VPtr (PItem [] row)] w R' /\ R = match R' with Ok (v, w1) => Ok (stamp (TyName n') v, w1) | x => x end
               | _ => R = Panic
               end
   end) ->
  written (Meth nm [] (CEnum at_) [n'] []) f -> Enter n f (Some self) [] w R.
Proof.
  intros A P N H W. inversion W; subst.
  assert (C : core_fn (module at_) !"get_ref" = Some FRef) by (destruct at_; [contradiction|shut..]).
  assert (D : core_fn (module at_) !"get_enum" = Some FEnum) by (destruct at_; [contradiction|shut..]).
  assert (X : EV n [(!"self", self)] (EMethod (path (module at_) !"get_enum" [EField (EVar !"self") !"ptr"]) !"unwrap" []) w
    (match spot_enum iter s with Some e => Ok (VPair (VText (fst e)) (VText (snd e)), w) | None => Panic end)).
  { apply (unwrap_rule n _ _ (fun e => VPair (VText (fst e)) (VText (snd e))) (spot_enum iter s) w w). unfold path. eapply ev_assoc.
    - eapply evs_ok; [eapply self_ptr; [look|exact P]|apply evs_nil].
    - cbn [and_then]. rewrite named_closed by (destruct at_; shut). eapply conv_R; [apply (assoc_core _ _ _ _ _ D)|reflexivity]. }
  destruct (spot_enum iter s) as [[key id]|]; cbn [fst snd] in *.
  2: { subst R. eapply enter_rule; [cbn [public f_lets start_env f_args map combine app]; eapply lets_let; [exact X|reflexivity]|reflexivity]. }
  set (G := [(!"list_name", VText key); (!"self", self)]).
  assert (Y : spot_ref r s key <> Err) by (unfold spot_ref; destruct (spot_ref_id s key) as [[]|]; try discriminate; destruct (root_table r key); discriminate).
  assert (Z : EV n G (EMethod (path (module at_) !"get_ref" [EField (EVar !"self") !"ptr"; ERef (EVar !"list_name")]) !"unwrap" []) w
    (match spot_ref r s key with Ok (Some q) => Ok (of_qv (fun s => VPtr (PItem [] s)) q, w) | _ => Panic end)).
  { assert (Z : EV n G (path (module at_) !"get_ref" [EField (EVar !"self") !"ptr"; ERef (EVar !"list_name")]) w (o <- spot_ref r s key ; Ok (of_opt (of_qv (fun s => VPtr (PItem [] s))) o, w))).
    { unfold path. eapply ev_assoc.
      - eapply evs_ok; [eapply self_ptr; [look|exact P]|].
        eapply evs_ok; [apply ev_ref, ev_var; [shut|look]|apply evs_nil].
      - cbn [and_then]. rewrite named_closed by (destruct at_; shut). eapply conv_R; [apply (assoc_core _ _ _ _ _ C)|reflexivity]. }
    destruct (spot_ref r s key) as [o| |]; cbn [Base.bind] in Z; [|contradiction|eapply ev_call0; [exact Z|reflexivity]].
    eapply conv_R; [eapply unwrap_rule; exact Z|destruct o; reflexivity]. }
  assert (IF : EV n G (EIfLet (PTuple !"Qv" !"Val" !"p") (EMethod (path (module at_) !"get_ref" [EField (EVar !"self") !"ptr"; ERef (EVar !"list_name")]) !"unwrap" []) (EVar !"p") (EMacro !"unreachable" [])) w
     (match spot_ref r s key with Ok (Some (Val row)) => Ok (VPtr (PItem [] row), w) | _ => Panic end)).
  { eapply ev_iflet; [exact Z|]. destruct (spot_ref r s key) as [[[row| |]|]| |]; try reflexivity; cbn [and_then of_qv bound].
    - rewrite named_closed by shut. change (eqb_bytes !"Qv" !"Qv" && eqb_bytes !"Val" !"Val") with true. cbv iota. apply ev_var; [shut|look].
    - apply ev_macro.
    - apply ev_macro. }
  destruct (spot_ref r s key) as [[[row| |]|]| |];
    try (subst R; eapply enter_rule; [cbn [public f_lets start_env f_args map combine app]; eapply lets_let; [exact X|]; cbn [and_then bound app]; eapply lets_let; [exact IF|reflexivity]|reflexivity]).
  destruct H as (R' & H & ->).
  eapply (enter_rule n _ (Some self) [] w).
  - cbn [public f_lets start_env f_args map combine app]. eapply lets_let; [exact X|]. cbn [and_then bound app]. eapply lets_let; [exact IF|]. cbn [and_then bound app]. apply lets_nil.
  - cbn [and_then public f_value f_ret]. eexists. split.
    + unfold path. eapply ev_assoc.
      * eapply evs_ok; [apply ev_ref, ev_var; [shut|look]|].
        eapply evs_ok; [apply ev_var; [shut|look]|apply evs_nil].
      * cbn [and_then]. rewrite named_closed; [exact H|]. destruct (eqb_bytes n' !"Self") eqn:E; [apply eqb_bytes_eq in E; contradiction|reflexivity].
    + destruct R' as [[v w1]| |]; reflexivity.
Qed.
Lemma enum_ids_rule n nm at_ f self l s w : at_ <> AtRoot -> points_to self (PItem l s) -> written (Meth nm [] (CEnumIds at_) [] []) f ->
  Enter n f (Some self) [] w (match spot_enum iter s with Some e => Ok (VPair (VText (fst e)) (VText (snd e)), w) | None => Panic end).
Proof.
  intros A P W. inversion W; subst. assert (D : core_fn (module at_) !"get_enum" = Some FEnum) by (destruct at_; [contradiction|shut..]).
  eapply (enter_rule n _ (Some self) [] w); [apply lets_nil|]. cbn [and_then public f_value f_ret start_env f_args map combine app]. eexists. split.
  - apply (unwrap_rule n _ _ (fun e => VPair (VText (fst e)) (VText (snd e))) (spot_enum iter s) w w). unfold path. eapply ev_assoc.
    + eapply evs_ok; [eapply self_ptr; [look|exact P]|apply evs_nil].
    + cbn [and_then]. rewrite named_closed by (destruct at_; shut). eapply conv_R; [apply (assoc_core _ _ _ _ _ D)|reflexivity].
  - destruct (spot_enum iter s); reflexivity.
Qed.

Lemma to_string_rule s w : Method (VText s) !"to_string" [] w (Ok (VText s, w)).
Proof. apply conv_now. reflexivity. Qed.

(** [ids] are ids whose [to_str] gives the texts *)
Lemma set_ref_rule {A} n nm vt key n' f self l s w (ids : A -> val) (F : A -> name) (c : qv A) : points_to self (PItem l s) ->
  (forall a w, Method (ids a) !"to_str" [] w (Ok (VText (F a), w))) -> unwrapped vt (Some c) = Ok c -> written (Meth nm [!"id"] (CSetRef vt key) [n'] []) f ->
  Enter n f (Some self) [as_marked ids vt c] w (Ok (VUnit, w ++ [ESetRef l key (of_qv (fun a => VText (F a)) c)])).
Proof.
  intros P K U W. inversion W; subst. set (e := match vt with Normal => _ | _ => _ end).
  set (G := [(!"self", self); (!"id", as_marked ids vt c)]).
  assert (X : EV n G e w (Ok (of_qv (fun a => VText (F a)) c, w))).
  { assert (V : EV n G (EVar !"id") w (Ok (as_marked ids vt c, w))) by (apply ev_var; [shut|look]).
    assert (Y : forall c0 x H, In c0 holders -> EV n G x w (Ok (VMake !"Qv" H (match c with Val a => [ids a] | _ => [] end), w)) ->
      EV n G (EMethod x !"map" [EClosure false !"v" (call0 (call0 (EVar !"v") "to_str") "to_string")]) w (Ok (VMake !"Qv" H (match c with Val a => [VText (F a)] | _ => [] end), w))).
    { intros c0 x H _ E. eapply ev_call1; [exact E|apply ev_closure|]. destruct c; [|apply method_map_none; holder..].
      eapply method_map; [holder| |].
      - unfold call0. eapply method_rule; [eapply method_rule; [apply ev_var; [shut|look]|apply K]|apply to_string_rule].
      - reflexivity. }
    unfold e. destruct vt.
    - destruct c; try discriminate U. unfold path. eapply ev_assoc.
      + eapply evs_ok; [unfold call0; eapply method_rule; [eapply method_rule; [exact V|apply K]|apply to_string_rule]|apply evs_nil].
      + cbn [and_then]. rewrite named_closed by shut. apply conv_now. reflexivity.
    - destruct c; try discriminate U; (eapply (Y !"Qv"); [holder|unfold call0; eapply method_rule; [exact V|cbn [as_marked of_qv]; apply method_into_qv; holder]]).
    - destruct c; try discriminate U; (eapply (Y !"Qv"); [holder|unfold call0; eapply method_rule; [exact V|cbn [as_marked of_qv]; apply method_into_qv; holder]]).
    - destruct c; (eapply (Y !"Qv"); [holder|unfold call0; eapply method_rule; [exact V|cbn [as_marked of_qv]; apply method_into_qv; holder]]). }
  eapply (enter_rule n _ (Some self) _ w).
  - cbn [public f_lets start_env f_args map combine app fst]. eapply lets_expr.
    + unfold path. eapply (ev_assoc _ _ _ _ _ _ (Ok ([VPtr (PItem l s); VText key; of_qv (fun a => VText (F a)) c], w))).
      * eapply evs_ok; [eapply self_ptr; [look|exact P]|].
        eapply evs_ok; [apply ev_text|].
        eapply evs_ok; [exact X|apply evs_nil].
      * cbn [and_then]. rewrite named_closed by shut. apply (assoc_core _ _ FSetRef). shut.
    + cbn [core_do and_then]. apply lets_nil.
  - reflexivity.
Qed.
Lemma set_enum_rule n nm n' f self l s w kind key id : points_to self (PItem l s) -> (forall w, Method kind !"id" [] w (Ok (VPair (VText key) (VText id), w))) ->
  written (Meth nm [!"kind"] CSetEnum [n'] []) f -> Enter n f (Some self) [kind] w (Ok (VUnit, w ++ [ESetEnum l key id])).
Proof.
  intros P K W. inversion W; subst. eapply (enter_rule n _ (Some self) _ w).
  - cbn [public f_lets start_env f_args map combine app fst]. eapply lets_let; [unfold call0; eapply method_rule; [apply ev_var; [shut|look]|apply K]|]. cbn [and_then bound app]. eapply lets_expr.
    + unfold path. eapply (ev_assoc _ _ _ _ _ _ (Ok ([VPtr (PItem l s); VText key; VText id], w))).
      * eapply evs_ok; [eapply self_ptr; [look|exact P]|].
        eapply evs_ok; [apply ev_var; [shut|look]|].
        eapply evs_ok; [apply ev_var; [shut|look]|apply evs_nil].
      * cbn [and_then]. rewrite named_closed by shut. apply (assoc_core _ _ FSetEnum). shut.
    + cbn [core_do and_then]. apply lets_nil.
  - reflexivity.
Qed.

(* ------------------------------------------------------------------ *)
(** * Rows *)

Lemma ask_row n G self t key w : hget !"self" G = Some self -> points_to self (PTable t) ->
  EV n G (EMethod (path !"table" !"get_value" [EField (EVar !"self") !"ptr"; EText key]) !"unwrap" []) w (match table_value t key with Some s => Ok (VPtr (PItem [] s), w) | None => Panic end).
Proof.
  intros H P. apply (unwrap_rule n G _ (fun s => VPtr (PItem [] s)) (table_value t key) w w). unfold path. eapply ev_assoc.
  - eapply evs_ok; [eapply self_ptr; [exact H|exact P]|]. eapply evs_ok; [apply ev_text|apply evs_nil].
  - cbn [and_then]. rewrite named_closed by shut. eapply conv_R; [apply (assoc_core _ _ FRow); shut|reflexivity].
Qed.
Lemma row_us_rule n nm key n' f self t w : points_to self (PTable t) -> (forall s, makes n' !"from" (PItem [] s)) -> written (Meth (nm ++ !"_us") [] (CRow true key) [n'] [n']) f ->
  Enter n f (Some self) [] w (match table_value t key with Some s => Ok (row_value n' s, w) | None => Panic end).
Proof.
  intros P K W. inversion W; subst. pose proof (ask_row n [(!"self", self)] self t key w ltac:(look) P) as X. destruct (table_value t key) as [s|].
  - eapply enter_rule; [cbn [f_lets start_env f_args map combine app]; eapply lets_let; [exact X|]; cbn [and_then bound app]; apply lets_nil|].
    cbn [and_then f_value f_ret]. eexists. split; [eapply makes_rule; [apply K|apply ev_var; [shut|look]]|reflexivity].
  - eapply enter_rule; [cbn [f_lets start_env f_args map combine app]; eapply lets_let; [exact X|reflexivity]|reflexivity].
Qed.
Lemma row_rule n nm key n' f self t w : points_to self (PTable t) -> (forall s, makes n' !"from" (PItem [] s)) -> written (Meth nm [] (CRow false key) [n'] [n']) f ->
  Enter n f (Some self) [] w (match table_value t key with Some s => Ok (VGuard !"CItemConst" (Some n') (row_value n' s), w) | None => Panic end).
Proof.
  intros P K W. inversion W; subst. pose proof (ask_row n [(!"self", self)] self t key w ltac:(look) P) as X. destruct (table_value t key) as [s|].
  - eapply enter_rule; [cbn [public f_lets start_env f_args map combine app]; eapply lets_let; [exact X|]; cbn [and_then bound app]; apply lets_nil|].
    cbn [and_then public f_value f_ret]. eexists. split; [eapply guarded_rule; [holder|eapply makes_rule; [apply K|apply ev_var; [shut|look]]|look]|reflexivity].
  - eapply enter_rule; [cbn [public f_lets start_env f_args map combine app]; eapply lets_let; [exact X|reflexivity]|reflexivity].
Qed.
End Run.
