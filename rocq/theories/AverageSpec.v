(** Which phase the next save is expected in, in terms of the saves so far. *)
From Verif Require Import Base PhaseModel PhaseSpec.

(** The group of a position: the last save there and everything saved since, all of it at
    later positions *)
Definition since (j : nat) (saves g : list save) : Prop :=
  exists before size after, saves = before ++ g /\ g = (j, size) :: after /\
    Forall (fun e => (j < fst e)%nat) after.

(** the average size in [a] is above the average size in [b] *)
Definition heavier (a b : list save) : Prop := total b * zlen a < total a * zlen b.

(** The files saved after the first of [q] are [limit_count] many, or together not smaller
    than the [limit_nth] largest file of the path *)
Definition at_limit (op : options) (d : pdata) (q : list save) : Prop :=
  exists c, cumul op = Some c /\
    ((exists n, limit_count c = Some n /\ n <= zlen (tl q)) \/
     (exists n, limit_nth c = Some n /\ ~ larger n (total (tl q)) d)).

(** Saving at position [j] again does not pay: the files of its group are larger on average
    than those of the group of the position before; or it is the last one, at its limit. *)
Definition rises (op : options) (saves : list save) (d : pdata) (j : nat) : Prop :=
  exists g q, since j saves g /\ since (j - 1) saves q /\
    (heavier g q \/ (j = max_phase op /\ at_limit op d q)).
Definition stays (op : options) (saves : list save) (d : pdata) (j : nat) : Prop :=
  exists g q, since j saves g /\ since (j - 1) saves q /\
    ~ heavier g q /\ (j = max_phase op -> ~ at_limit op d q).

(** few and small enough for averages to be told apart by floats *)
Definition precise (saves : list save) : Prop :=
  total saves * zlen saves < 2 ^ 51 /\ zlen saves < 2 ^ 51.

(** the position of the next save once the path is full *)
Definition next_save (op : options) (saves : list save) (d : pdata) (p : nat) : Prop :=
  (p <= max_phase op)%nat /\
  (forall j, (p < j <= max_phase op)%nat -> rises op saves d j) /\
  ((p = 0%nat /\ update_phase_0 op = true) \/
   (p = 1%nat /\ update_phase_0 op = false /\ rises op saves d 1) \/
   ((1 <= p)%nat /\ stays op saves d p)).
