(** The order of history files, independent of the tree that holds them. *)
From Coq Require Export Sorted Permutation.
From Verif Require Import Base FileNameModel FileNameSpec.

(** control number and order *)
Definition position (p : props) : list Z := p_control p :: p_order p.

(** earlier: number by number, and a position before those that extend it *)
Fixpoint earlier (a b : list Z) : Prop :=
  match a, b with
  | _, [] => False
  | [], _ :: _ => True
  | x :: a, y :: b => x < y \/ (x = y /\ earlier a b)
  end.

Definition chronological (l : list props) : Prop := StronglySorted (fun p q => earlier (position p) (position q)) l.

(** the last file at its position *)
Definition last_at (files : list props) (p : props) : Prop :=
  exists l1 l2, files = l1 ++ p :: l2 /\ Forall (fun q => position q <> position p) l2.

Definition last_of {A} (l : list A) : option A := match rev l with [] => None | x :: _ => Some x end.

(** no two files at the same position *)
Definition separate (files : list props) : Prop := NoDup (map position files).
