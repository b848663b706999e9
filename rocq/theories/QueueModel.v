(** Model of background saves, the lock of a history folder and its counter.
    Citations are relative to /repo/dochy_fs/src/imp/history. *)
From Verif Require Import Base.

Section Queue.
(** what a save or load does while it holds the lock (pub_fn/save_history_file.rs
    L78-116, pub_fn/load_history_file.rs L16-63), and what the lock protects.  The
    document of a background save and its identity are taken when it is requested
    (L42-43), so they are part of the operation.  Not modelled: a panic while the
    lock is held, which poisons the lock; [set_current_root_obj_info]
    (current_root_obj_info/history_cache_map.rs L104-109), which takes the lock
    without the counter; the unsafe [init_dochy_cache_us] (L37-42). *)
Context {op shared : Type}.
Variable perform : op -> shared -> shared.

(** A thread inside save or load: before [get_mutex]
    (current_root_obj_info/history_cache_map.rs L76-82) has the lock; with the lock
    before the counter is raised (current_root_obj_info/mutex_g.rs L14); with the
    counter raised; after the work; after the counter is lowered (mutex_g.rs L21,
    before the guard inside is dropped).  The callback of a background save
    (pub_fn/save_history_file.rs L49-56) runs after that and is left out. *)
Inductive phase : Type := Waiting | Locked | Counted | Performed | Uncounted.

(** [q_requested]: all background saves so far, in order; [q_queue]: the jobs of
    the pool of current_root_obj_info/fifo_thread.rs L13-21, which has one thread and runs them in order;
    [q_worker]: the thread of the pool, [None] while idle; [q_callers]: the other
    threads inside save or load; [q_log]: what was performed, with whether in the
    background. *)
Record state : Type := State {
  q_requested : list op;
  q_queue : list op;
  q_worker : option (op * phase);
  q_callers : list (op * phase);
  q_lock : bool;
  q_counter : Z;
  q_shared : shared;
  q_log : list (bool * op) }.

(** current_root_obj_info/history_cache_map.rs L49-61, history_cache_item.rs L41 *)
Definition start (x : shared) : state := State [] [] None [] false 0 x [].

(** One step of a thread: the new phase ([None]: it has returned), lock, counter,
    shared data, and whether the operation was performed. *)
Definition advance (t : op * phase) (lock : bool) (counter : Z) (x : shared) : option (option (op * phase) * bool * Z * shared * bool) :=
  let '(o, p) := t in
  match p with
  | Waiting => if lock then None else Some (Some (o, Locked), true, counter, x, false)
  | Locked => Some (Some (o, Counted), lock, counter + 1, x, false)
  | Counted => Some (Some (o, Performed), lock, counter, perform o x, true)
  | Performed => Some (Some (o, Uncounted), lock, counter - 1, x, false)
  | Uncounted => Some (None, false, counter, x, false)
  end.

(** notation of the model: an optional thread as a list, and the log entry of a step *)
Definition opt {A} (t : option A) : list A := match t with Some t => [t] | None => [] end.
Definition entry (bg done : bool) (o : op) : list (bool * op) := if done then [(bg, o)] else [].

(** pub_fn/save_history_file.rs L37-58 save_history_file_nb *)
Definition request (s : state) (o : op) : state :=
  State (q_requested s ++ [o]) (q_queue s ++ [o]) (q_worker s) (q_callers s) (q_lock s) (q_counter s) (q_shared s) (q_log s).

(** pub_fn/save_history_file.rs L62-76 save_history_file_nb_if_vacant; the counter
    is read (current_root_obj_info/history_cache_item.rs L44) and the job queued in
    one step, and the relaxed read sees the current value *)
Definition request_if_vacant (s : state) (o : op) : state * bool :=
  if q_counter s =? 0 then (request s o, true) else (s, false).

(** one step of the system: calls of the API, of the pool and of the threads *)
Inductive step : state -> state -> Prop :=
| step_request s o : step s (request s o)
| step_if_vacant s o : step s (fst (request_if_vacant s o))
(** a save or load on a thread of its own *)
| step_call s o : step s (State (q_requested s) (q_queue s) (q_worker s) ((o, Waiting) :: q_callers s) (q_lock s) (q_counter s) (q_shared s) (q_log s))
(** the pool's thread takes the next job *)
| step_take s o queue : q_worker s = None -> q_queue s = o :: queue ->
    step s (State (q_requested s) queue (Some (o, Waiting)) (q_callers s) (q_lock s) (q_counter s) (q_shared s) (q_log s))
| step_worker s t t' lock counter x done : q_worker s = Some t -> advance t (q_lock s) (q_counter s) (q_shared s) = Some (t', lock, counter, x, done) ->
    step s (State (q_requested s) (q_queue s) t' (q_callers s) lock counter x (q_log s ++ entry true done (fst t)))
| step_caller s a t b t' lock counter x done : q_callers s = a ++ t :: b -> advance t (q_lock s) (q_counter s) (q_shared s) = Some (t', lock, counter, x, done) ->
    step s (State (q_requested s) (q_queue s) (q_worker s) (a ++ opt t' ++ b) lock counter x (q_log s ++ entry false done (fst t))).

(** any number of steps *)
Inductive steps : state -> state -> Prop :=
| steps_refl s : steps s s
| steps_step s s1 s2 : steps s s1 -> step s1 s2 -> steps s s2.

End Queue.
Arguments state : clear implicits.
