(** What the recorded sizes are expected to be.  A save is a position in the
    path (0 is the first phase) and a size. *)
From Verif Require Import Base PhaseModel.

Notation save := (nat * Z)%type.

Fixpoint total (l : list save) : Z := match l with [] => 0 | e :: r => snd e + total r end.

(** The saves a file descends from, oldest first and its own save last: at every
    position [j] of the path the item has the size of the last save at [j], and the
    number and total size of everything saved since; all of that was saved below
    position [j]. *)
Definition exact_sizes (saves : list save) (d : pdata) : Prop :=
  (exists before j size, saves = before ++ [(j, size)] /\ length d = S j) /\
  forall j it, nth_error d j = Some it ->
    exists before after, saves = before ++ (j, my_size it) :: after /\
      Forall (fun e => (j < fst e)%nat) after /\ desc_size it = total after /\ desc_len it = zlen after.

(** The sizes of a file reached by saves at any positions on the path or just
    after its end *)
Inductive kept : list save -> pdata -> Prop :=
| kept_first size : 0 <= size -> kept [(0%nat, size)] (pdata_new size)
| kept_next saves d j size d' : kept saves d -> (j <= length d)%nat -> 0 <= size ->
    pop_and_push d j size = Ok d' -> kept (saves ++ [(j, size)]) d'.

(** the same with the positions chosen by the program, whatever the outcomes of
    the comparisons of averages *)
Inductive recorded (op : options) : list save -> pdata -> Prop :=
| recorded_first size : 0 <= size -> recorded op [(0%nat, size)] (pdata_new size)
| recorded_next greater saves d j size d' : recorded op saves d ->
    calc_next_phase greater d op = Ok j -> 0 <= size ->
    pop_and_push d j size = Ok d' -> recorded op (saves ++ [(j, size)]) d'.

(** fewer than 2^63 bytes and saves *)
Definition moderate (saves : list save) : Prop := total saves < 2 ^ 63 /\ zlen saves < 2 ^ 62.

(** The saves made in the last phase since another phase was saved *)
Definition last_run (op : options) (saves run : list save) : Prop :=
  (exists before, saves = before ++ run) /\ Forall (fun e => fst e = max_phase op) run.

(** at least [n] of the files of a path are larger than [size] *)
Definition larger (n size : Z) (d : pdata) : Prop :=
  n <= zlen (filter (fun it => size <? my_size it) d).
