(** What C35 speaks about. *)
From Verif Require Import Base QueueModel.

Section Queue.
Context {op shared : Type}.
Notation state := (state op shared).

(** the threads inside save or load *)
Definition threads (s : state) : list (op * phase) := opt (q_worker s) ++ q_callers s.
(** the background saves performed so far, in order *)
Definition performed_bg (s : state) : list op := map snd (filter fst (q_log s)).
(** a save that was asked for and has not returned *)
Definition unfinished (is_save : op -> bool) (s : state) : Prop :=
  exists o, is_save o = true /\ (In o (q_queue s) \/ exists p, In (o, p) (threads s)).
(** all of a list of operations, one after the other *)
Definition perform_all (perform : op -> shared -> shared) (l : list (bool * op)) (x : shared) : shared :=
  fold_left (fun x e => perform (snd e) x) l x.
End Queue.
