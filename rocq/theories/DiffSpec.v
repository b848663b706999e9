(** What documents are, when two documents are the same, and when one document is
    a later version of another one; independent of how differences are computed. *)
From Coq Require Export Permutation Sorted.
From Verif Require Import Base CompactionModel CompactionSpec StringCompactionModel
  LinkedModel LinkedSpec DocModel DiffModel DiffWireModel.

(* ------------------------------------------------------------------ *)
(** * Values *)

Definition is_zero (bits : Z) : Prop := bits = 0 \/ bits = 2 ^ 63.

(** the same bits, or both a zero *)
Definition same_float (a b : Z) : Prop := a = b \/ (is_zero a /\ is_zero b).

Definition same_qv {T} (R : T -> T -> Prop) (a b : qv T) : Prop :=
  match a, b with
  | Val x, Val y => R x y
  | Null, Null | Undefined, Undefined => True
  | _, _ => False
  end.

(** same content, wherever it is stored *)
Definition same_arc (a b : arc (list Z)) : Prop := snd a = snd b.

(** the same type and value *)
Definition same_param (p q : param) : Prop :=
  match p, q with
  | PBool a, PBool b => a = b
  | PInt a, PInt b => a = b
  | PFloat a, PFloat b => same_qv same_float a b
  | PString a, PString b => same_qv same_arc a b
  | PIntArray a, PIntArray b => same_qv same_arc a b
  | PFloatArray a, PFloatArray b => same_qv (Forall2 same_float) a b
  | PBinary a, PBinary b => same_qv same_arc a b
  | _, _ => False
  end.

(** What a Rust value of a type is, and what the memory [mem] holds behind the
    addresses in it. *)
Definition wf_param (mem : Z -> list Z) (p : param) : Prop :=
  match p with
  | PInt (Val i) => i64_range i
  | PFloat (Val b) => u64_range b
  | PString (Val a) => snd a = mem (fst a) /\ rust_string (2 ^ 63) (snd a)
  | PIntArray (Val a) => snd a = mem (fst a) /\ Forall i64_range (snd a) /\ 8 * zlen (snd a) < 2 ^ 63
  | PFloatArray (Val a) => Forall u64_range a /\ 8 * zlen a < 2 ^ 63
  | PBinary (Val a) => snd a = mem (fst a) /\ wf_bytes (snd a) /\ zlen (snd a) < 2 ^ 63
  | _ => True
  end.

(** a parameter that may stand where the definition has [p0] with kind [vt] *)
Definition fits (mem : Z -> list Z) (p p0 : param) (vt : var_type) : Prop :=
  type_of p = type_of p0 /\ acceptable vt (param_qv_type p) = true /\ wf_param mem p.

Definition wf_ref (q : qv (list Z)) : Prop := match q with Val s => rust_string (2 ^ 63) s | _ => True end.

(* ------------------------------------------------------------------ *)
(** * Definitions *)

(** the numbers of the members are distinct and below their count *)
Definition numbered {A} (m : hmap (Z * A)) : Prop :=
  NoDup (map fst m) /\ NoDup (map (fun e => fst (snd e)) m) /\
  Forall (fun e => 0 <= fst (snd e) < zlen m) m.

(** numbers that fit a machine: there are fewer than [2^62] members *)
Definition few_numbers {A} (members : hmap (Z * A)) : Prop :=
  forall key e, hget key members = Some e -> fst e < 2 ^ 62.

Definition wf_def {D} (inner : D -> Prop) (d : ldef D) : Prop :=
  numbered (ld_members d) /\ numbered (ld_refs d) /\
  Forall (fun e => match snd (snd e) with DMil d' _ => inner d' | _ => True end) (ld_members d).

Fixpoint wf_defT (n : nat) : defT n -> Prop :=
  match n with
  | O => fun _ => False
  | S n => wf_def (wf_defT n)
  end.

Definition wf_rootdef {n} (def : rootdef n) : Prop :=
  numbered def /\ few_numbers def /\
  Forall (fun e => match snd (snd e) with RVMList d _ => wf_defT n d | _ => True end) def.

(* ------------------------------------------------------------------ *)
(** * Documents of a definition *)

Section Typed.
Variable mem : Z -> list Z.

Definition typed_value {D L} (inner : L -> D -> Prop) (members : hmap (Z * ldefval D)) (key : name) (v : lval L) : Prop :=
  match v with
  | LParam p => exists id p0 vt, hget key members = Some (id, DParam p0 vt) /\ fits mem p p0 vt
  | LMil o => exists id d undefiable, hget key members = Some (id, DMil d undefiable) /\
                match o with Some l => inner l d | None => undefiable = true end
  | LCil _ => exists id d, hget key members = Some (id, DCil d)
  end.

Definition typed_ref (refs : hmap (Z * (qv (list Z) * var_type))) (key : name) (q : qv (list Z)) : Prop :=
  exists id v vt, hget key refs = Some (id, (v, vt)) /\ acceptable vt (qv_type_of q) = true /\ wf_ref q.

Definition typed_item {D L} (inner : L -> D -> Prop) (it : item L) (d : ldef D) : Prop :=
  NoDup (map fst (it_values it)) /\ NoDup (map fst (it_refs it)) /\
  (forall key v, hget key (it_values it) = Some v -> typed_value inner (ld_members d) key v) /\
  (forall key q, hget key (it_refs it) = Some q -> typed_ref (ld_refs d) key q).

Definition typed_list {D L} (inner : L -> D -> Prop) (l : mlist (item L)) (d : ldef D) : Prop :=
  NoDup (ids (fst l)) /\ Forall u64_range (ids (fst l)) /\ u64_range (snd l) /\
  zlen (fst l) < 2 ^ 62 /\ few_numbers (ld_members d) /\ few_numbers (ld_refs d) /\
  forall id it, lookup id (fst l) = Some it -> typed_item inner it d.

Fixpoint typedT (n : nat) : mlistT n -> defT n -> Prop :=
  match n with
  | O => fun _ _ => False
  | S n => typed_list (typedT n)
  end.

Definition typed_root {n} (s : sabun n) (def : rootdef n) : Prop :=
  NoDup (map fst s) /\
  forall key v, hget key s = Some v ->
    match v with
    | RParam p => exists id p0 vt, hget key def = Some (id, RVParam p0 vt) /\ fits mem p p0 vt
    | RMut o => exists id d undefiable, hget key def = Some (id, RVMList d undefiable) /\
                  match o with Some l => typedT n l d | None => undefiable = true end
    end.

End Typed.

(* ------------------------------------------------------------------ *)
(** * The same document *)

Definition same_opt {A} (R : A -> A -> Prop) (x y : option A) : Prop :=
  match x, y with Some a, Some b => R a b | None, None => True | _, _ => False end.

Definition same_value {L} (inner : L -> L -> Prop) (v w : lval L) : Prop :=
  match v, w with
  | LParam p, LParam q => same_param p q
  | LMil a, LMil b => same_opt inner a b
  | LCil t, LCil u => t = u
  | _, _ => False
  end.

(** every member and every reference is the same *)
Definition same_item {L} (inner : L -> L -> Prop) (a b : item L) : Prop :=
  (forall key, same_opt (same_value inner) (hget key (it_values a)) (hget key (it_values b))) /\
  (forall key, hget key (it_refs a) = hget key (it_refs b)).

(** every id has the same item; with [ord] the order is the same as well, with
    [nx] also the next id to be handed out *)
Definition same_list (ord nx : bool) {L} (inner : L -> L -> Prop) (a b : mlist (item L)) : Prop :=
  (if ord then ids (fst a) = ids (fst b) else Permutation (ids (fst a)) (ids (fst b))) /\
  (forall id, same_opt (same_item inner) (lookup id (fst a)) (lookup id (fst b))) /\
  (nx = true -> snd a = snd b).

Fixpoint sameT (ord nx : bool) (n : nat) : mlistT n -> mlistT n -> Prop :=
  match n with
  | O => fun _ _ => True
  | S n => same_list ord nx (sameT ord nx n)
  end.

Definition same_rootval (ord nx : bool) {n} (v w : rootsab (mlistT n)) : Prop :=
  match v, w with
  | RParam p, RParam q => same_param p q
  | RMut a, RMut b => same_opt (sameT ord nx n) a b
  | _, _ => False
  end.

Definition same_root (ord nx : bool) {n} (a b : sabun n) : Prop :=
  forall key, same_opt (same_rootval ord nx) (hget key a) (hget key b).

(* ------------------------------------------------------------------ *)
(** * Later versions *)

(** A later version still has every member and reference an earlier one has (once
    set, a member is never unset again), each of the same kind; constant lists
    do not change.  The ids the two versions share come in the same order
    ([ord]); items and lists only the later version has contain no constant
    lists. *)
Section Later.
Variable ord : bool.

(** no constant list *)
Definition no_cil_item {L} (inner : L -> Prop) (it : item L) : Prop :=
  forall key v, hget key (it_values it) = Some v ->
    match v with LCil _ => False | LMil (Some l) => inner l | _ => True end.
Definition no_cil {L} (inner : L -> Prop) (l : mlist (item L)) : Prop :=
  forall id it, lookup id (fst l) = Some it -> no_cil_item inner it.
Fixpoint no_cilT (n : nat) : mlistT n -> Prop :=
  match n with O => fun _ => True | S n => no_cil (no_cilT n) end.

Definition later_value {L} (fresh : L -> Prop) (inner : L -> L -> Prop) (o : option (lval L)) (w : lval L) : Prop :=
  match o, w with
  | Some (LParam _), LParam _ => True
  | Some (LMil (Some a)), LMil (Some b) => inner a b
  | Some (LMil None), LMil (Some b) => fresh b
  | Some (LMil _), LMil None => True
  | Some (LCil t), LCil u => t = u
  | None, LParam _ => True
  | None, LMil (Some b) => fresh b
  | None, LMil None => True
  | _, _ => False
  end.

Definition later_item {L} (fresh : L -> Prop) (inner : L -> L -> Prop) (a b : item L) : Prop :=
  (forall key, hget key (it_values a) <> None -> hget key (it_values b) <> None) /\
  (forall key w, hget key (it_values b) = Some w -> later_value fresh inner (hget key (it_values a)) w) /\
  (forall key, hget key (it_refs a) <> None -> hget key (it_refs b) <> None).

Definition later_list {L} (fresh : L -> Prop) (inner : L -> L -> Prop) (a b : mlist (item L)) : Prop :=
  (ord = true -> filter (fun id => has id (fst b)) (ids (fst a)) = filter (fun id => has id (fst a)) (ids (fst b))) /\
  (forall id y, lookup id (fst b) = Some y ->
     match lookup id (fst a) with
     | Some x => later_item fresh inner x y
     | None => no_cil_item fresh y
     end).

Fixpoint laterT (n : nat) : mlistT n -> mlistT n -> Prop :=
  match n with O => fun _ _ => True | S n => later_list (no_cilT n) (laterT n) end.

Definition later_root {n} (def : rootdef n) (a b : sabun n) : Prop :=
  (forall key, hget key a <> None -> hget key b <> None) /\
  (forall key w, hget key b = Some w ->
     match hget key a, w with
     | Some (RParam _), RParam _ => True
     | Some (RMut (Some x)), RMut (Some y) => laterT n x y
     | Some (RMut None), RMut (Some y) => no_cilT n y
     | Some (RMut _), RMut None => True
     | None, RParam _ => True
     | _, _ => False
     end) /\
  (** lists of the root that may be undefined are undefined in both *)
  (forall key id d w, hget key def = Some (id, RVMList d true) -> hget key b = Some w ->
     w = RMut None /\ hget key a = Some (RMut None)).

(** where nothing but a next id changes, it does not change either *)
Definition next_item {L} (inner : L -> L -> Prop) (a b : item L) : Prop :=
  forall key x y, hget key (it_values a) = Some (LMil (Some x)) -> hget key (it_values b) = Some (LMil (Some y)) -> inner x y.
Definition next_list {L} (same inner : L -> L -> Prop) (a b : mlist (item L)) : Prop :=
  (same_list ord false same a b -> snd a = snd b) /\
  (forall id x y, lookup id (fst a) = Some x -> lookup id (fst b) = Some y -> next_item inner x y).
Fixpoint nextT (n : nat) : mlistT n -> mlistT n -> Prop :=
  match n with O => fun _ _ => True | S n => next_list (sameT ord false n) (nextT n) end.
Definition next_root {n} (a b : sabun n) : Prop :=
  forall key x y, hget key a = Some (RMut (Some x)) -> hget key b = Some (RMut (Some y)) -> nextT n x y.

End Later.

(* ------------------------------------------------------------------ *)
(** * Differences *)

(** what reading back makes of a value: a new address *)
Definition fresh_qv (q : qv (arc (list Z))) : qv (arc (list Z)) :=
  match q with Val a => Val (0, snd a) | Null => Null | Undefined => Undefined end.
Definition fresh_param (p : param) : param :=
  match p with
  | PString q => PString (fresh_qv q)
  | PIntArray q => PIntArray (fresh_qv q)
  | PBinary q => PBinary (fresh_qv q)
  | p => p
  end.
Definition map_snd {A B} (f : A -> B) (m : bmap A) : bmap B := map (fun e => (fst e, f (snd e))) m.
Definition fresh_item {LD} (inner : LD -> LD) (d : itemdiff LD) : itemdiff LD :=
  IDiff (map_snd fresh_param (df_params d)) (map_snd (option_map inner) (df_lists d)) (df_refs d).
Definition fresh_enum {LD} (inner : LD -> LD) (e : enumdiff LD) : enumdiff LD :=
  match e with
  | Delete => Delete
  | Create p d => Create p (fresh_item inner d)
  | Modify d => Modify (fresh_item inner d)
  end.
Definition fresh_ldiff {LD} (inner : LD -> LD) (d : listdiff LD) : listdiff LD :=
  (map_snd (fresh_enum inner) (fst d), snd d).
Fixpoint freshT (n : nat) : ldiffT n -> ldiffT n :=
  match n with O => fun d => d | S n => fresh_ldiff (freshT n) end.
Definition fresh_root {n} (d : rootdiff (ldiffT n)) : rootdiff (ldiffT n) :=
  RDiff (map_snd fresh_param (rd_params d)) (map_snd (option_map (freshT n)) (rd_lists d)).

(* ------------------------------------------------------------------ *)
(** * Differences of a definition *)

Section TypedDiff.
Variable mem : Z -> list Z.

(** member numbers in increasing order, none twice *)
Definition sorted_keys {A} (m : bmap A) : Prop := StronglySorted Z.lt (map fst m).

(** parameters and lists under the numbers of members of their kind, references
    under the numbers of references *)
Definition typed_itemdiff {D LD} (inner : LD -> D -> Prop) (d : itemdiff LD) (def : ldef D) : Prop :=
  sorted_keys (df_params d) /\ sorted_keys (df_lists d) /\ sorted_keys (df_refs d) /\
  (forall id p, In (id, p) (df_params d) ->
     exists key p0 vt, hget key (ld_members def) = Some (id, DParam p0 vt) /\ fits mem p p0 vt) /\
  (forall id o, In (id, o) (df_lists d) ->
     exists key ld undefiable, hget key (ld_members def) = Some (id, DMil ld undefiable) /\
       match o with Some x => inner x ld | None => undefiable = true end) /\
  (forall id q, In (id, q) (df_refs d) ->
     exists key v vt, hget key (ld_refs def) = Some (id, (v, vt)) /\ acceptable vt (qv_type_of q) = true /\ wf_ref q).

Definition typed_listdiff {D LD} (inner : LD -> D -> Prop) (d : listdiff LD) (def : ldef D) : Prop :=
  few_numbers (ld_members def) /\ few_numbers (ld_refs def) /\ zlen (fst d) < 2 ^ 63 /\ u64_range (snd d) /\
  Forall (fun e => u64_range (fst e) /\
    match snd e with
    | Delete => True
    | Create prev x => match prev with Some k => u64_range k | None => True end /\ typed_itemdiff inner x def
    | Modify x => typed_itemdiff inner x def
    end) (fst d).

Fixpoint typed_diffT (n : nat) : ldiffT n -> defT n -> Prop :=
  match n with
  | O => fun _ _ => False
  | S n => typed_listdiff (typed_diffT n)
  end.

Definition typed_rootdiff {n} (d : rootdiff (ldiffT n)) (def : rootdef n) : Prop :=
  sorted_keys (rd_params d) /\ sorted_keys (rd_lists d) /\
  (forall id p, In (id, p) (rd_params d) ->
     exists key p0 vt, hget key def = Some (id, RVParam p0 vt) /\ fits mem p p0 vt) /\
  (forall id o, In (id, o) (rd_lists d) ->
     exists key ld undefiable, hget key def = Some (id, RVMList ld undefiable) /\
       match o with Some x => typed_diffT n x ld | None => undefiable = true end).

End TypedDiff.

(** Items whose changed lists can be read back: the member numbers of an item
    with changed lists must not be written one by one. *)
Definition readable_item {LD} (inner : LD -> Prop) (d : itemdiff LD) : Prop :=
  (df_lists d = [] \/ forall l, store_ids (map fst (df_params d)) (map fst (df_lists d)) <> Ok (SNumbers l)) /\
  forall id x, In (id, Some x) (df_lists d) -> inner x.

Definition readable_list {LD} (inner : LD -> Prop) (d : listdiff LD) : Prop :=
  Forall (fun e => match snd e with Delete => True | Create _ x | Modify x => readable_item inner x end) (fst d).

Fixpoint readableT (n : nat) : ldiffT n -> Prop :=
  match n with O => fun _ => True | S n => readable_list (readableT n) end.

Definition readable_root {n} (d : rootdiff (ldiffT n)) : Prop :=
  forall id x, In (id, Some x) (rd_lists d) -> readableT n x.

(** Definitions for which every item is readable: items that contain mutable
    lists have at most 11 members. *)
Definition small_def {D} (inner : D -> Prop) (def : ldef D) : Prop :=
  ((exists key id d u, hget key (ld_members def) = Some (id, DMil d u)) -> zlen (ld_members def) <= 11) /\
  forall key id d u, hget key (ld_members def) = Some (id, DMil d u) -> inner d.

Fixpoint small_defT (n : nat) : defT n -> Prop :=
  match n with O => fun _ => True | S n => small_def (small_defT n) end.

Definition small_rootdef {n} (def : rootdef n) : Prop :=
  forall key id d u, hget key def = Some (id, RVMList d u) -> small_defT n d.
