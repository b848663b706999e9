(** How large a document is, independent of how differences are computed. *)
From Verif Require Import Base CompactionModel StringCompactionModel LinkedModel LinkedSpec DocModel DiffModel DiffWireModel DiffSpec.

Definition total {A} (f : A -> Z) (l : list A) : Z := fold_right (fun a s => f a + s) 0 l.

(** the bytes of a value *)
Definition content (p : param) : Z :=
  match p with
  | PString (Val a) | PBinary (Val a) => zlen (snd a)
  | PIntArray (Val a) => 8 * zlen (snd a)
  | PFloatArray (Val a) => 8 * zlen a
  | _ => 0
  end.
Definition ref_content (q : qv (list Z)) : Z := match q with Val s => zlen s | _ => 0 end.

(** A value, a reference and a list take at most 80 bytes besides what is in them, an
    item takes at most 250.  Constant lists are not counted. *)
Definition size_value {L} (inner : L -> Z) (v : lval L) : Z :=
  match v with
  | LParam p => 80 + content p
  | LMil (Some l) => 80 + inner l
  | LMil None => 80
  | LCil _ => 0
  end.
Definition size_item {L} (inner : L -> Z) (it : item L) : Z :=
  250 + total (fun e => size_value inner (snd e)) (it_values it) + total (fun e => 80 + ref_content (snd e)) (it_refs it).
Definition size_list {L} (inner : L -> Z) (l : mlist (item L)) : Z := total (fun e => size_item inner (snd e)) (fst l).
Fixpoint sizeT (n : nat) : mlistT n -> Z := match n with O => fun _ => 0 | S n => size_list (sizeT n) end.
Definition size_root {n} (s : sabun n) : Z :=
  100 + total (fun e => match snd e with RParam p => 80 + content p | RMut (Some l) => 80 + sizeT n l | RMut None => 80 end) s.

(** No key and no id twice, at every depth. *)
Definition clean_item {L} (inner : L -> Prop) (it : item L) : Prop :=
  NoDup (map fst (it_values it)) /\ NoDup (map fst (it_refs it)) /\
  forall key l, hget key (it_values it) = Some (LMil (Some l)) -> inner l.
Definition clean_list {L} (inner : L -> Prop) (l : mlist (item L)) : Prop :=
  NoDup (ids (fst l)) /\ forall id it, lookup id (fst l) = Some it -> clean_item inner it.
Fixpoint cleanT (n : nat) : mlistT n -> Prop := match n with O => fun _ => True | S n => clean_list (cleanT n) end.
Definition clean_root {n} (s : sabun n) : Prop :=
  NoDup (map fst s) /\ forall key l, hget key s = Some (RMut (Some l)) -> cleanT n l.
