(** What C60 speaks about: which document is at an address, which counts are right, and
    what programs do with documents that share nothing. *)
From Verif Require Import Base StringCompactionModel LinkedModel LinkedSpec DocModel JsonModel ValidModel IntfModel ArcModel.

(** the allocator gives addresses that are not in use *)
Definition fresh_alloc (alloc : Z -> list (Z * (Z * cell)) -> Z) : Prop :=
  forall t cs, lookup (alloc t cs) cs = None.

(** the content of the cell at an address *)
Definition content (h : heap) (a : Z) : option cell :=
  match lookup a (cells h) with Some (_, v) => Some v | None => None end.

(* ------------------------------------------------------------------ *)
(** * The document at an address *)

(** two lists of pairs have the same keys and related values *)
Definition paired {K A B} (R : A -> B -> Prop) : list (K * A) -> list (K * B) -> Prop :=
  Forall2 (fun e e' => fst e = fst e' /\ R (snd e) (snd e')).

(** the texts of a parameter are at their addresses *)
Definition param_at (h : heap) (p : param) : Prop :=
  Forall (fun t => content h (fst t) = Some (CText (snd t))) (texts p).

Section At.
Variable h : heap.
Context {L : Type}.
Variable inner : Z -> L -> Prop.

Definition lval_at (v : lval Z) (w : lval L) : Prop :=
  match v, w with
  | LParam p, LParam q => p = bare q /\ param_at h q
  | LCil t, LCil u => t = u
  | LMil None, LMil None => True
  | LMil (Some a), LMil (Some l) => inner a l
  | _, _ => False
  end.
Definition vals_at (a : Z) (m : hmap (lval L)) : Prop :=
  exists c, content h a = Some (CVals c) /\ paired lval_at c m.
Definition item_at (x : Z * Z) (it : item L) : Prop :=
  vals_at (fst x) (it_values it) /\ content h (snd x) = Some (CRefs (it_refs it)).
End At.

Fixpoint list_at (n : nat) (h : heap) (a : Z) : mlistT n -> Prop :=
  match n with
  | O => fun _ => False
  | S n => fun l => NoDup (ids (fst l)) /\
      exists c, content h a = Some (CList (c, snd l)) /\ paired (item_at h (list_at n h)) c (fst l)
  end.

(** the values of the root as values of an item *)
Definition as_lval {L} (v : rootsab L) : lval L := match v with RParam p => LParam p | RMut o => LMil o end.
Definition as_lvals {L} (s : hmap (rootsab L)) : hmap (lval L) := map (fun e => (fst e, as_lval (snd e))) s.

(** the document [s] is at [a] *)
Definition root_at (n : nat) (h : heap) (a : Z) (s : sabun n) : Prop := vals_at h (list_at n h) a (as_lvals s).

(** The texts of the defaults are in memory: [held] are the references of the definition. *)
Fixpoint def_at (n : nat) (h : heap) (held : list Z) : defT n -> Prop :=
  match n with
  | O => fun _ => True
  | S n => fun d =>
      (forall key id p vt, hget key (ld_members d) = Some (id, DParam p vt) -> param_at h p /\ incl (addrs p) held) /\
      (forall key id d' u, hget key (ld_members d) = Some (id, DMil d' u) -> def_at n h held d')
  end.
Definition root_def_at {n} (h : heap) (held : list Z) (def : rootdef n) : Prop :=
  (forall key id p vt, hget key def = Some (id, RVParam p vt) -> param_at h p /\ incl (addrs p) held) /\
  (forall key id d u, hget key def = Some (id, RVMList d u) -> def_at n h held d).

(* ------------------------------------------------------------------ *)
(** * Counts *)

(** how often an address occurs *)
Fixpoint occ (x : Z) (l : list Z) : Z :=
  match l with [] => 0 | y :: l => (if y =? x then 1 else 0) + occ x l end.

(** the references that cells hold to [x] *)
Fixpoint inside (x : Z) (cs : list (Z * (Z * cell))) : Z :=
  match cs with [] => 0 | (_, (_, v)) :: cs => occ x (children v) + inside x cs end.

(** the count at an address; nothing counts as 0 *)
Definition count (h : heap) (x : Z) : Z := match lookup x (cells h) with Some (c, _) => c | None => 0 end.

(** references do not go round *)
Definition layered (h : heap) : Prop :=
  exists rank : Z -> nat, forall a v x, content h a = Some v -> In x (children v) -> (rank x < rank a)%nat.

(** Every count is the number of references there are, [outside] those that are not in a
    cell, and no cell is without references. *)
Definition counted (h : heap) (outside : list Z) : Prop :=
  NoDup (ids (cells h)) /\
  (forall a c v, lookup a (cells h) = Some (c, v) -> 0 < c) /\
  (forall x, count h x = occ x outside + inside x (cells h)) /\
  layered h.

(** the cells that a reference leads to *)
Inductive leads (h : heap) : Z -> Z -> Prop :=
| leads_here a : leads h a a
| leads_on a v x b : content h a = Some v -> In x (children v) -> leads h x b -> leads h a b.

(** the documents that are there *)
Definition live {A} (docs : list (option A)) : list A := flat_map (fun o => match o with Some a => [a] | None => [] end) docs.

(** The state of a program: documents [env] at [docs], the definition held by [held]. *)
Definition good {n} (def : rootdef n) (held : list Z) (x : heap * list (option Z)) (env : list (option (sabun n))) : Prop :=
  counted (fst x) (live (snd x) ++ held) /\
  root_def_at (fst x) held def /\
  Forall2 (fun o s => match o, s with Some a, Some s => root_at n (fst x) a s | None, None => True | _, _ => False end) (snd x) env.

(* ------------------------------------------------------------------ *)
(** * Programs over documents that share nothing *)

(** The same but that lists without items may have the next id 0 (C09_ids_refuted). *)
Section Fresher.
Context {L : Type}.
Variable inner : L -> L -> Prop.
Definition fresher_lval (v w : lval L) : Prop :=
  match v, w with
  | LMil (Some l), LMil (Some l') => inner l l'
  | v, w => w = v
  end.
Definition fresher_item (it it' : item L) : Prop :=
  paired fresher_lval (it_values it) (it_values it') /\ it_refs it' = it_refs it.
End Fresher.
Fixpoint fresher (n : nat) : mlistT n -> mlistT n -> Prop :=
  match n with
  | O => fun _ _ => True
  | S n => fun l l' => (snd l' = snd l \/ fst l = [] /\ snd l' = 0) /\ paired (fresher_item (fresher n)) (fst l) (fst l')
  end.
Definition fresher_root {n} (s s' : sabun n) : Prop := paired (fresher_lval (fresher n)) (as_lvals s) (as_lvals s').

(** calls that differ in addresses only *)
Definition unaddr (p : param) : param := at_addr 0 p.
Definition unaddr_item (o : item_op) : item_op :=
  match o with
  | ISet key p => ISet key (unaddr p)
  | IWrite key t _ txt => IWrite key t 0 txt
  | IInitial key _ len => IInitial key 0 len
  | o => o
  end.
Fixpoint unaddr_step (s : step) : step :=
  match s with
  | OnList o => OnList o
  | OnItem id o => OnItem id (unaddr_item o)
  | Into id key s => Into id key (unaddr_step s)
  end.
Definition unaddr_root (o : root_step) : root_step :=
  match o with
  | OSet key p => OSet key (unaddr p)
  | OWrite key t _ txt => OWrite key t 0 txt
  | OInitial key _ len => OInitial key 0 len
  | OOpen key => OOpen key
  | OInto key s => OInto key (unaddr_step s)
  end.

(** A copy is the document; a call changes the document it is made with, and no other. *)
Inductive runs {n} (def : rootdef n) : list (option (sabun n)) -> list doc_op -> res (list (option (sabun n))) -> Prop :=
| runs_nil env : runs def env [] (Ok env)
| runs_copy env i s ops r : nth_error env i = Some (Some s) ->
    runs def (env ++ [Some s]) ops r -> runs def env (DCopy i :: ops) r
| runs_drop env i s ops r : nth_error env i = Some (Some s) ->
    runs def (lset i None env) ops r -> runs def env (DDrop i :: ops) r
| runs_edit env i s s0 o o' s' b ops r : nth_error env i = Some (Some s) ->
    fresher_root s s0 -> unaddr_root o' = unaddr_root o -> root_run def s0 o' = Ok (s', b) ->
    runs def (lset i (Some s') env) ops r -> runs def env (DEdit i o :: ops) r
| runs_panic env i s s0 o o' ops : nth_error env i = Some (Some s) ->
    fresher_root s s0 -> unaddr_root o' = unaddr_root o -> root_run def s0 o' = Panic ->
    runs def env (DEdit i o :: ops) Panic
| runs_none env o ops :
    (forall s, nth_error env (match o with DCopy i | DDrop i | DEdit i _ => i end) <> Some (Some s)) ->
    runs def env (o :: ops) Err.

(** the document an operation changes *)
Definition changes (i : nat) (o : doc_op) : bool :=
  match o with DCopy _ => false | DDrop j | DEdit j _ => Nat.eqb i j end.

(* ------------------------------------------------------------------ *)
(** * Equal documents *)

(** what the memory holds at an address *)
Definition mem_of (h : heap) (a : Z) : list Z := match content h a with Some (CText s) => s | _ => [] end.

(** no item has a constant inner list of its own *)
Definition plain_item {L} (inner : L -> Prop) (it : item L) : Prop :=
  forall key v, hget key (it_values it) = Some v -> match v with LCil _ => False | LMil (Some l) => inner l | _ => True end.
Fixpoint plainT (n : nat) : mlistT n -> Prop :=
  match n with O => fun _ => True | S n => fun l => forall id it, lookup id (fst l) = Some it -> plain_item (plainT n) it end.
Definition plain_root {n} (s : sabun n) : Prop :=
  forall key l, hget key s = Some (RMut (Some l)) -> plainT n l.
